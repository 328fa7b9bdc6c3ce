(** Model of src/name.rs, src/label_slice.rs, src/label_sequence.rs and src/util/input_buffer.rs. *)
From Verif Require Import Base.

(* ------------------------------------------------------------------ *)
(** * src/util/input_buffer.rs *)

(** input_buffer.rs:3-7 [InputBuffer].  The field [len] always equals [data.len()] (set together in
    [new]:10-16 and [set_data]:18-22) and is not stored separately. *)
Record inbuf := mkIn { ib_data : list N; ib_pos : nat }.
(** input_buffer.rs:10-16 *)
Definition ib_new (d : list N) : inbuf := mkIn d 0.
(** input_buffer.rs:24-26 *)
Definition ib_len (b : inbuf) : nat := length (ib_data b).
(** input_buffer.rs:32-34 *)
Definition position : M inbuf nat := fun b => (Ok (ib_pos b), b).
(** input_buffer.rs:36-43 *)
Definition set_position (p : nat) : M inbuf unit := fun b =>
  if p <=? ib_len b then (Ok tt, mkIn (ib_data b) p) else (Err, b).
(** input_buffer.rs:45-53 *)
Definition read_u8 : M inbuf N := fun b =>
  if ib_pos b <? ib_len b then
    (idx (ib_data b) (ib_pos b), mkIn (ib_data b) (ib_pos b + 1))
  else (Err, b).
(** input_buffer.rs:55-64 *)
Definition read_u16 : M inbuf N := fun b =>
  if ib_pos b + 1 <? ib_len b then
    (let? h := idx (ib_data b) (ib_pos b) in
     let? l := idx (ib_data b) (ib_pos b + 1) in
     Ok (N.lor (N.shiftl h 8) l), mkIn (ib_data b) (ib_pos b + 2))
  else (Err, b).
(** input_buffer.rs:66-77 *)
Definition read_u32 : M inbuf N := fun b =>
  if ib_pos b + 3 <? ib_len b then
    (let? b0 := idx (ib_data b) (ib_pos b) in
     let? b1 := idx (ib_data b) (ib_pos b + 1) in
     let? b2 := idx (ib_data b) (ib_pos b + 2) in
     let? b3 := idx (ib_data b) (ib_pos b + 3) in
     Ok (N.lor (N.lor (N.lor (N.shiftl b0 24) (N.shiftl b1 16)) (N.shiftl b2 8)) b3),
     mkIn (ib_data b) (ib_pos b + 4))
  else (Err, b).
(** input_buffer.rs:79-88 *)
Definition read_bytes (n : nat) : M inbuf (list N) := fun b =>
  if ib_pos b + n <=? ib_len b then
    (slice (ib_data b) (ib_pos b) (ib_pos b + n), mkIn (ib_data b) (ib_pos b + n))
  else (Err, b).

(* ------------------------------------------------------------------ *)
(** * src/name.rs *)

(** name.rs:22-26 *)
Definition MAX_WIRE_LEN : nat := 255.
Definition MAX_LABEL_COUNT : nat := 128.
Definition MAX_LABEL_LEN : N := 63.
Definition COMPRESS_POINTER_MARK8 : N := 192.
Definition COMPRESS_POINTER_MARK16 : N := 49152.

(** name.rs:28-32 *)
Record name := mkName { n_raw : list N; n_offsets : list N }.
(** label_sequence.rs:10-14 *)
Record labelseq := mkSeq { ls_data : list N; ls_offsets : list N }.
(** label_slice.rs:8-14 (borrowed data copied) *)
Record labelslice := mkSlice
  { sl_data : list N; sl_offsets : list N; sl_first : nat; sl_last : nat }.

(** name.rs:34-39 *)
Definition root_name : name := mkName [0%N] [0%N].

(** name.rs:13-20 *)
Inductive relation := SuperDomain | SubDomain | Equal | CommonAncestor | NoRelation.
(** name.rs:41-46 [NameComparisonResult]; [order] is an i8. *)
Record cmp_result := mkCmp { cr_order : Z; cr_common : N; cr_relation : relation }.

(** name.rs:65-68 *)
Definition is_digit (c : N) : bool := ((48 <=? c) && (c <=? 57))%N.
(** name.rs:70-90 [digitvalue] / DIGITAL_VALUES: -1 except for hexadecimal digits.
    The parser only calls it on decimal digits. *)
Definition digitvalue (c : N) : Z :=
  if is_digit c then (Z.of_N c - 48)%Z
  else if ((65 <=? c) && (c <=? 70))%N then (Z.of_N c - 55)%Z
  else if ((97 <=? c) && (c <=? 102))%N then (Z.of_N c - 87)%Z
  else (-1)%Z.
(** name.rs:92-114 [lower_case] / MAP_TO_LOWER, as a function (identity except A-Z). *)
Definition lower_case (c : N) : N := if ((65 <=? c) && (c <=? 90))%N then (c + 32)%N else c.

(** ** string_parse, name.rs:116-229 *)

(** name.rs:48-56 *)
Inductive ftstat := FInit | FStart | FOrdinary | FInitialescape | FEscape | FEscdecimal.
Definition ft_eqb (a b : ftstat) : bool :=
  match a, b with
  | FInit, FInit | FStart, FStart | FOrdinary, FOrdinary
  | FInitialescape, FInitialescape | FEscape, FEscape | FEscdecimal, FEscdecimal => true
  | _, _ => false
  end.

(** The local variables of string_parse, name.rs:122-133 ([start]/[end] are represented by the list
    of bytes still to be read). *)
Record spst := mkSp
  { sp_data : list N; sp_offsets : list N; sp_count : N; sp_digits : N; sp_value : Z;
    sp_state : ftstat }.

(** One pass through the body of ['inner]. *)
Inductive spres :=
| SpLoop (s : spst)      (* stay in 'inner with the same character *)
| SpBreak (s : spst)     (* break 'inner *)
| SpDone (s : spst)      (* done = true; break 'outer *)
| SpErr
| SpPanic.

Definition CH_DOT : N := 46.
Definition CH_BSL : N := 92.
Definition CH_AT : N := 64.
Definition CH_LBR : N := 91.

(** name.rs:167, 221: [data[offsets[offsets.len() - 1] as usize] = count] *)
Definition sp_set_len (s : spst) : res (list N) :=
  let? i := csub (length (sp_offsets s)) 1 in
  let? o := idx (sp_offsets s) i in
  upd_r (sp_data s) (N.to_nat o) (sp_count s).

(** name.rs:141-213; [last] is [start == end] after [start += 1]. *)
Definition sp_step (s : spst) (c : N) (last : bool) : spres :=
  let '(mkSp data offs count digits value st) := s in
  match st with
  | FInit =>
      if (c =? CH_DOT)%N && negb last then SpErr
      else if (c =? CH_DOT)%N || ((c =? CH_AT)%N && last)
      then SpDone (mkSp (data ++ [0%N]) offs count digits value st)
      else SpLoop (mkSp data offs count digits value FStart)
  | FStart =>
      SpLoop (mkSp (data ++ [0%N]) offs 0 digits value
                (if (c =? CH_BSL)%N then FInitialescape else FOrdinary))
  | FOrdinary =>
      if (c =? CH_DOT)%N then
        if (count =? 0)%N then SpErr
        else match sp_set_len s with
             | Ok data' =>
                 let offs' := offs ++ [as_u8 (blen data')] in
                 if last then SpDone (mkSp (data' ++ [0%N]) offs' count digits value st)
                 else SpBreak (mkSp data' offs' count digits value FStart)
             | _ => SpPanic
             end
      else if (c =? CH_BSL)%N then SpBreak (mkSp data offs count digits value FEscape)
      else if (MAX_LABEL_LEN <? count + 1)%N then SpErr
      else SpBreak (mkSp (data ++ [c]) offs (count + 1) digits value st)
  | FInitialescape =>
      if (c =? CH_LBR)%N then SpErr
      else SpLoop (mkSp data offs count digits value FEscape)
  | FEscape =>
      if negb (is_digit c) then
        if (MAX_LABEL_LEN <? count + 1)%N then SpErr
        else SpLoop (mkSp (data ++ [c]) offs (count + 1) digits value FOrdinary)
      else SpLoop (mkSp data offs count 0 0 FEscdecimal)
  | FEscdecimal =>
      if negb (is_digit c) then SpErr
      else
        let value' := (value * 10 + digitvalue c)%Z in
        let digits' := (digits + 1)%N in
        if (digits' =? 3)%N then
          if (255 <? value')%Z then SpErr
          else if (MAX_LABEL_LEN <? count + 1)%N then SpErr
          else SpBreak (mkSp (data ++ [c]) offs (count + 1) digits' value' FOrdinary)
        else SpBreak (mkSp data offs count digits' value' st)
  end.

(** name.rs:141 ['inner: loop].  The fuel is the number of passes; [sp_inner_fuel] passes always suffice. *)
Inductive spinner := InBreak (s : spst) | InDone (s : spst) | InErr | InPanic | InHang.
Fixpoint sp_inner (fuel : nat) (s : spst) (c : N) (last : bool) : spinner :=
  match fuel with
  | O => InHang
  | S f =>
      match sp_step s c last with
      | SpLoop s' => sp_inner f s' c last
      | SpBreak s' => InBreak s'
      | SpDone s' => InDone s'
      | SpErr => InErr
      | SpPanic => InPanic
      end
  end.
Definition sp_inner_fuel : nat := 6.

(** name.rs:134-214 ['outer: loop].  Result: the local variables, [done], and whether [start == end]. *)
Fixpoint sp_outer (s : spst) (rest : list N) : res (spst * bool * bool) :=
  match rest with
  | [] => Ok (s, false, true)
  | c :: rest' =>
      if MAX_WIRE_LEN <=? length (sp_data s) then Ok (s, false, false)
      else
        match sp_inner sp_inner_fuel s c (match rest' with [] => true | _ => false end) with
        | InBreak s' => sp_outer s' rest'
        | InDone s' => Ok (s', true, match rest' with [] => true | _ => false end)
        | InErr => Err
        | InPanic => Panic
        | InHang => Hang
        end
  end.

(** name.rs:116-229.  [name_raw[start_pos..end]] is the argument; all callers pass the whole string. *)
Definition string_parse (s : list N) (as_absolute : bool) : res (list N * list N) :=
  let? (st, done, at_end) := sp_outer (mkSp [] [0%N] 0 0 0 FInit) s in
  if done : bool then Ok (sp_data st, sp_offsets st)
  else
    let? _ := ensure_r (length (sp_data st) <? MAX_WIRE_LEN) in
    let? _ := assert_r at_end in
    let? _ := ensure_r (ft_eqb (sp_state st) FOrdinary) in
    let? _ := assert_r (negb (sp_count st =? 0)%N) in
    let? data := sp_set_len st in
    if as_absolute
    then Ok (data ++ [0%N], sp_offsets st ++ [as_u8 (blen data)])
    else Ok (data, sp_offsets st).

(** name.rs:232-238 (the argument is the byte representation of the &str) *)
Definition name_new (s : list N) : res name :=
  let? (data, offsets) := string_parse s true in Ok (mkName data offsets).

(** ** Name::from_wire, name.rs:244-308 *)

(** name.rs:58-63 *)
Inductive fwstat := WStart | WOrdinary | WNewCurrent.
(** local variables, name.rs:245-256 ([buf] is the monad state; [pos_beg] is constant). *)
Record fwst := mkFw
  { fw_n : nat; fw_nused : nat; fw_cused : nat; fw_done : bool; fw_data : list N;
    fw_offsets : list N; fw_seen : bool; fw_state : fwstat; fw_current : nat;
    fw_biggest : nat; fw_new_current : nat }.

(** One iteration of the while body, name.rs:259-302.  The boolean result is [true] when the iteration
    executes [break] (name.rs:299). *)
Definition fw_body (s : fwst) : M inbuf (fwst * bool) :=
  let '(mkFw n nused cused done data offs seen st current biggest newc) := s in
  let! c := read_u8 in
  let current := current + 1 in
  let cused := if seen then cused else cused + 1 in
  match st with
  | WStart =>
      if (c <=? MAX_LABEL_LEN)%N then
        let offs := offs ++ [as_u8 (N.of_nat nused)] in
        let nused := nused + (N.to_nat c + 1) in
        ensure (nused <=? MAX_WIRE_LEN) ;;
        ret (mkFw (N.to_nat c) nused cused (if (c =? 0)%N then true else done) (data ++ [c]) offs
               seen WOrdinary current biggest newc, false)
      else if (N.land c COMPRESS_POINTER_MARK8 =? COMPRESS_POINTER_MARK8)%N then
        ret (mkFw 1 nused cused done data offs seen WNewCurrent current biggest
               (N.to_nat (N.land c 63)), false)
      else fail
  | WOrdinary =>
      let! n := lift (csub n 1) in
      ret (mkFw n nused cused done (data ++ [c]) offs seen
             (if n =? 0 then WStart else WOrdinary) current biggest newc, false)
  | WNewCurrent =>
      let newc := newc * 256 + N.to_nat c in
      let! n := lift (csub n 1) in
      if negb (n =? 0) then
        ret (mkFw n nused cused done data offs seen st current biggest newc, true)
      else
        ensure (newc <? biggest) ;;
        set_position newc ;;
        ret (mkFw n nused cused done data offs true WStart newc newc newc, false)
  end.

(** name.rs:258 [while current < buf.len() && !done] *)
Fixpoint fw_loop (fuel : nat) (s : fwst) : M inbuf fwst :=
  match fuel with
  | O => lift Hang
  | S f =>
      let! b := get in
      if (fw_current s <? ib_len b) && negb (fw_done s) then
        let! (s', brk) := fw_body s in
        if brk : bool then ret s' else fw_loop f s'
      else ret s
  end.

(** Enough iterations for every input (proved): at most 255 label bytes plus two bytes per pointer, and
    pointers strictly decrease below the start position. *)
Definition fw_fuel (pos : nat) : nat := 259 + 2 * pos.

(** name.rs:244-308 *)
Definition name_from_wire : M inbuf name :=
  let! pos_beg := position in
  let! s := fw_loop (fw_fuel pos_beg)
              (mkFw 0 0 0 false [] [] false WStart pos_beg pos_beg 0) in
  ensure (fw_done s) ;;
  set_position (pos_beg + fw_cused s) ;;
  ret (mkName (fw_data s) (fw_offsets s)).

(** ** Accessors, name.rs:310-323, 538-558 *)
Definition name_len (n : name) : nat := length (n_raw n).
Definition label_count (n : name) : nat := length (n_offsets n).

(** name.rs:329-344.  [drain] of an out-of-range interval panics. *)
Definition into_label_sequence (nm : name) (first last : nat) : res labelseq :=
  let? ol := idx (n_offsets nm) last in
  let? rl := idx (n_raw nm) (N.to_nat ol) in
  let? last_label_len := u8_add rl 1 in
  let? data_length := u8_add ol last_label_len in
  let? raw := slice (n_raw nm) 0 (N.to_nat data_length) in
  let? offs := slice (n_offsets nm) 0 (last + 1) in
  if first =? 0 then Ok (mkSeq raw offs)
  else
    let? of_ := idx offs first in
    let? raw := slice raw (N.to_nat of_) (length raw) in
    let? offs := slice offs first (length offs) in
    let? cur := idx offs 0 in
    let? offs := rmap (fun v => u8_sub v cur) offs in
    Ok (mkSeq raw offs).

(** name.rs:350-388 *)
Definition concat_all (self : name) (suffixes : list name) : res name :=
  let? final_length :=
    rfold (fun a s => let? k := csub (name_len s) 1 in Ok (a + k)) suffixes (name_len self) in
  let? final_count :=
    rfold (fun a s => let? k := csub (label_count s) 1 in Ok (a + k)) suffixes (label_count self) in
  let? _ := ensure_r (final_length <=? MAX_WIRE_LEN) in
  let? _ := ensure_r (final_count <=? MAX_LABEL_COUNT) in
  let? l1 := csub (name_len self) 1 in
  let? raw := slice (n_raw self) 0 l1 in
  let? sc := csub (length suffixes) 1 in
  let? init := slice suffixes 0 sc in
  let? raw := rfold (fun raw s =>
                let? k := csub (name_len s) 1 in
                let? piece := slice (n_raw s) 0 k in Ok (raw ++ piece)) init raw in
  let? lst := idx suffixes sc in
  let raw := raw ++ n_raw lst in
  let? (offsets, _) :=
    rfold (fun '(offsets, copied_len) s =>
        let? i := csub copied_len 1 in
        let? last_offset := idx offsets i in
        let? tail := slice (n_offsets s) 1 (label_count s) in
        let? tail := rmap (fun v => u8_add v last_offset) tail in
        let? k := csub (copied_len + label_count s) 1 in
        Ok (offsets ++ tail, k)) suffixes (n_offsets self, label_count self) in
  Ok (mkName raw offsets).
(** name.rs:390-392 *)
Definition concat (self suffix : name) : res name := concat_all self [suffix].

(** name.rs:403-410, the loop [while i >= 0] ([S i] iterations left) *)
Fixpoint reverse_loop (nm : name) (i : nat) (raw offs : list N) (label_len : nat) : res (list N * list N * nat) :=
  match i with
  | O => Ok (raw, offs, label_len)
  | S i' =>
      let? a := idx (n_offsets nm) i' in
      let? b := idx (n_offsets nm) i in
      let? piece := slice (n_raw nm) (N.to_nat a) (N.to_nat b) in
      reverse_loop nm i' (raw ++ piece) (offs ++ [as_u8 (N.of_nat label_len)])
        (label_len + (N.to_nat b - N.to_nat a))
  end.
(** name.rs:394-415; [(label_count - 2) as i8] is negative, so the loop is empty, if label_count - 2 > 127. *)
Definition reverse (nm : name) : res name :=
  if label_count nm =? 1 then Ok nm
  else
    let? k := csub (label_count nm) 2 in
    let? (raw, offs, label_len) :=
      (if k <=? 127 then reverse_loop nm (k + 1) [] [] 0 else Ok ([], [], 0)) in
    Ok (mkName (raw ++ [0%N]) (offs ++ [as_u8 (N.of_nat label_len)])).

(** name.rs:417-451 (usize additions do not overflow in the model; UsizeModel.v has the version with machine arithmetic and proves when they agree) *)
Definition split (nm : name) (start_label label_count_ : nat) : res name :=
  let max := label_count nm in
  let? _ := ensure_r (start_label <? max) in
  let lc := if max <? start_label + label_count_ then max - start_label else label_count_ in
  if start_label + lc =? max then
    let? first_offset := idx (n_offsets nm) start_label in
    let? offsets := slice (n_offsets nm) start_label (length (n_offsets nm)) in
    let? start_pos := idx offsets 0 in
    let? raw := slice (n_raw nm) (N.to_nat start_pos) (name_len nm) in
    let? head := rmap (fun o => u8_sub o first_offset) (firstn lc offsets) in
    Ok (mkName raw (head ++ skipn lc offsets))
  else
    let? offsets := slice (n_offsets nm) start_label (start_label + lc + 1) in
    let? o0 := idx offsets 0 in
    let? o1 := idx offsets lc in
    let? raw := slice (n_raw nm) (N.to_nat o0) (N.to_nat o1) in
    let? first_offset := idx (n_offsets nm) start_label in
    let? head := rmap (fun o => u8_sub o first_offset) (firstn (lc + 1) offsets) in
    Ok (mkName (raw ++ [0%N]) (head ++ skipn (lc + 1) offsets)).

(** name.rs:453-455.  In a release build [label_count - level] wraps; the wrapped count is not used because [split] first checks
    [level < label_count].  (UsizeModel.v spells this out.) *)
Definition parent (md : mode) (nm : name) (level : nat) : res name :=
  if level <=? label_count nm then split nm level (label_count nm - level)
  else match md with Debug => Panic | Release => Err end.

(** name.rs:464-467: the inner while *)
Fixpoint lower_label (raw : list N) (p : nat) (label_len : nat) : res (list N * nat) :=
  match label_len with
  | O => Ok (raw, p)
  | S k =>
      let? c := idx raw p in
      lower_label (upd raw p (lower_case c)) (p + 1) k
  end.
Fixpoint lower_loop (raw : list N) (p : nat) (count : nat) : res (list N) :=
  match count with
  | O => Ok raw
  | S k =>
      let? label_len := idx raw p in
      let? (raw', p') := lower_label raw (p + 1) (N.to_nat label_len) in
      lower_loop raw' p' k
  end.
(** name.rs:457-470 *)
Definition as_lowercase (nm : name) : res name :=
  let? raw := lower_loop (n_raw nm) 0 (label_count nm) in
  Ok (mkName raw (n_offsets nm)).

(** name.rs:472-490 *)
Definition strip_left (nm : name) (k : nat) : res name :=
  let? _ := assert_r (k <? label_count nm) in
  if k =? 0 then Ok nm
  else
    let? offsets := slice (n_offsets nm) k (length (n_offsets nm)) in
    let? start_pos := idx (n_offsets nm) k in
    let? offsets := rmap (fun o => u8_sub o start_pos) offsets in
    let? raw := slice (n_raw nm) (N.to_nat start_pos) (name_len nm) in
    Ok (mkName raw offsets).
(** name.rs:492-507; [split_off(k)] is the tail from [k]. *)
Definition into_ancestor (nm : name) (k : nat) : res name :=
  let? _ := assert_r (k <? label_count nm) in
  if k =? 0 then Ok nm
  else
    let? start_pos := idx (n_offsets nm) k in
    let? offsets := slice (n_offsets nm) k (length (n_offsets nm)) in
    let? offsets := rmap (fun o => u8_sub o start_pos) offsets in
    let? raw := slice (n_raw nm) (N.to_nat start_pos) (name_len nm) in
    Ok (mkName raw offsets).
(** name.rs:509-526 *)
Definition strip_right (nm : name) (k : nat) : res name :=
  let? _ := assert_r (k <? label_count nm) in
  if k =? 0 then Ok nm
  else
    let new_count := label_count nm - k in
    let? end_label := csub new_count 1 in
    let? end_pos := idx (n_offsets nm) end_label in
    let? raw := slice (n_raw nm) 0 (N.to_nat end_pos + 1) in
    let? raw := upd_r raw (N.to_nat end_pos) 0%N in
    let? offsets := slice (n_offsets nm) 0 (end_label + 1) in
    Ok (mkName raw offsets).
(** name.rs:528-542; [truncate] keeps at most the given number of elements and never fails. *)
Definition into_child (nm : name) (k : nat) : res name :=
  let? _ := assert_r (k <? label_count nm) in
  if k =? 0 then Ok nm
  else
    let new_count := label_count nm - k in
    let? end_label := csub new_count 1 in
    let? end_pos := idx (n_offsets nm) end_label in
    let raw := firstn (N.to_nat end_pos + 1) (n_raw nm) in
    let? raw := upd_r raw (N.to_nat end_pos) 0%N in
    Ok (mkName raw (firstn new_count (n_offsets nm))).

(** name.rs:551-559: [while j > 0] *)
Fixpoint subdomain_loop (self parent : list N) (i j : nat) : res bool :=
  match j with
  | O => Ok true
  | S j' =>
      let? a := idx parent j in
      let? b := idx self i in
      if negb (lower_case a =? lower_case b)%N then Ok false
      else let? i' := csub i 1 in subdomain_loop self parent i' j'
  end.
(** name.rs:544-561 *)
Definition is_subdomain (self parent : name) : res bool :=
  if (name_len self <? name_len parent) || (label_count self <? label_count parent) then Ok false
  else
    let? i := csub (name_len self) 1 in
    let? j := csub (name_len parent) 1 in
    subdomain_loop (n_raw self) (n_raw parent) i j.

(** name.rs:563-569 *)
Definition is_wildcard (nm : name) : res bool :=
  if (name_len nm <? 3) || (label_count nm <? 2) then Ok false
  else
    let? o := idx (n_offsets nm) 1 in
    if negb (o =? 2)%N then Ok false
    else
      let? a := idx (n_raw nm) 0 in
      let? b := idx (n_raw nm) 1 in
      Ok ((a =? 1)%N && (b =? 42)%N).
(** name.rs:571-574 *)
Definition is_root (nm : name) : bool :=
  (name_len nm =? 1) && match n_raw nm with b :: _ => (b =? 0)%N | [] => false end.

(** name.rs:622-630 and 614-633: the two while loops of [eq] *)
Fixpoint eq_label (a b : list N) (pos : nat) (count : nat) : res (option nat) :=
  match count with
  | O => Ok (Some pos)
  | S k =>
      let? x := idx a pos in
      let? y := idx b pos in
      if negb (lower_case x =? lower_case y)%N then Ok None else eq_label a b (pos + 1) k
  end.
Fixpoint eq_loop (a b : list N) (pos : nat) (l : nat) : res bool :=
  match l with
  | O => Ok true
  | S k =>
      let? count := idx a pos in
      let? other := idx b pos in
      if negb (count =? other)%N then Ok false
      else
        let? r := eq_label a b (pos + 1) (N.to_nat count) in
        match r with None => Ok false | Some pos' => eq_loop a b pos' k end
  end.
(** name.rs:606-636 [PartialEq::eq] *)
Definition name_eq (a b : name) : res bool :=
  if negb (name_len a =? name_len b) || negb (label_count a =? label_count b) then Ok false
  else eq_loop (n_raw a) (n_raw b) 0 (label_count a).

(** name.rs:653-659 [Hash::hash]: the bytes written to the hasher *)
Definition name_hash_bytes (a : name) : list N := map lower_case (n_raw a).

(* ------------------------------------------------------------------ *)
(** * src/label_slice.rs *)

(** label_slice.rs:17-24 *)
Definition slice_of_name (nm : name) : res labelslice :=
  let? l := csub (label_count nm) 1 in Ok (mkSlice (n_raw nm) (n_offsets nm) 0 l).
(** label_slice.rs:26-33 *)
Definition slice_of_seq (s : labelseq) : res labelslice :=
  let? l := csub (length (ls_offsets s)) 1 in Ok (mkSlice (ls_data s) (ls_offsets s) 0 l).
(** label_slice.rs:46-50 *)
Definition sl_len (s : labelslice) : res nat :=
  let? ol := idx (sl_offsets s) (sl_last s) in
  let? of_ := idx (sl_offsets s) (sl_first s) in
  let? rl := idx (sl_data s) (N.to_nat ol) in
  let? last_len := u8_add rl 1 in
  let? d := u8_sub ol of_ in
  let? t := u8_add d last_len in
  Ok (N.to_nat t).
(** label_slice.rs:40-44 *)
Definition sl_bytes (s : labelslice) : res (list N) :=
  let? f := idx (sl_offsets s) (sl_first s) in
  let? n := sl_len s in
  slice (sl_data s) (N.to_nat f) (N.to_nat f + n).
(** label_slice.rs:67-70 *)
Definition sl_label_count (s : labelslice) : nat := sl_last s - sl_first s + 1.

(** [b as i8] *)
Definition as_i8 (b : N) : Z := let z := Z.of_N (b mod 256) in if (z <? 128)%Z then z else (z - 256)%Z.
(** two's complement wrap of an integer to i8 *)
Definition wrap_i8 (z : Z) : Z := let m := (z mod 256)%Z in if (m <? 128)%Z then m else (m - 256)%Z.
(** label_slice.rs:110: [(label1) as i8 - (label2) as i8] on i8 *)
Definition i8_diff (md : mode) (a b : N) : res Z :=
  let d := (as_i8 a - as_i8 b)%Z in
  if ((-128 <=? d) && (d <=? 127))%Z then Ok d
  else match md with Debug => Panic | Release => Ok (wrap_i8 d) end.

(** label_slice.rs:115-119, 125-129 *)
Definition rel_of (nlabels : nat) : relation :=
  if nlabels =? 0 then NoRelation else CommonAncestor.

(** label_slice.rs:102-125: [while count > 0]; [Some d] is the early return with order [d]. *)
Fixpoint cmp_label (md : mode) (cs : bool) (d1 d2 : list N) (pos1 pos2 count : nat) : res (option Z) :=
  match count with
  | O => Ok None
  | S k =>
      let? a := idx d1 pos1 in
      let? b := idx d2 pos2 in
      let a := if cs then a else lower_case a in
      let b := if cs then b else lower_case b in
      let? ch := i8_diff md a b in
      if negb (ch =? 0)%Z then Ok (Some ch) else cmp_label md cs d1 d2 (pos1 + 1) (pos2 + 1) k
  end.

(** label_slice.rs:89-138: [while l > 0] *)
Fixpoint cmp_loop (md : mode) (cs : bool) (a b : labelslice) (l l1 l2 nlabels : nat) (ldiff : Z) : res cmp_result :=
  match l with
  | O =>
      (* label_slice.rs:140-150 *)
      Ok (mkCmp (wrap_i8 ldiff) (as_u8 (N.of_nat nlabels))
            (if (ldiff <? 0)%Z then SuperDomain else if (0 <? ldiff)%Z then SubDomain else Equal))
  | S k =>
      let? l1 := csub l1 1 in
      let? l2 := csub l2 1 in
      let? o1 := idx (sl_offsets a) (l1 + sl_first a) in
      let? o2 := idx (sl_offsets b) (l2 + sl_first b) in
      let pos1 := N.to_nat o1 in
      let pos2 := N.to_nat o2 in
      let? c1 := idx (sl_data a) pos1 in
      let? c2 := idx (sl_data b) pos2 in
      let cdiff := (Z.of_N c1 - Z.of_N c2)%Z in
      let? r := cmp_label md cs (sl_data a) (sl_data b) (pos1 + 1) (pos2 + 1)
                  (Nat.min (N.to_nat c1) (N.to_nat c2)) in
      match r with
      | Some ch => Ok (mkCmp ch (as_u8 (N.of_nat nlabels)) (rel_of nlabels))
      | None =>
          if negb (cdiff =? 0)%Z
          then Ok (mkCmp (wrap_i8 cdiff) (as_u8 (N.of_nat nlabels)) (rel_of nlabels))
          else cmp_loop md cs a b k l1 l2 (nlabels + 1) ldiff
      end
  end.
(** label_slice.rs:82-151 *)
Definition sl_compare (md : mode) (cs : bool) (a b : labelslice) : res cmp_result :=
  let l1 := sl_label_count a in
  let l2 := sl_label_count b in
  cmp_loop md cs a b (Nat.min l1 l2) l1 l2 0 (Z.of_nat l1 - Z.of_nat l2)%Z.

(** [u8::eq_ignore_ascii_case] on slices (std) *)
Fixpoint eq_ignore_ascii_case (a b : list N) : bool :=
  match a, b with
  | [], [] => true
  | x :: a', y :: b' => (lower_case x =? lower_case y)%N && eq_ignore_ascii_case a' b'
  | _, _ => false
  end.
Fixpoint list_eqb (a b : list N) : bool :=
  match a, b with
  | [], [] => true
  | x :: a', y :: b' => (x =? y)%N && list_eqb a' b'
  | _, _ => false
  end.
(** label_slice.rs:72-80 *)
Definition sl_equals (a b : labelslice) (cs : bool) : res bool :=
  let? la := sl_len a in
  let? lb := sl_len b in
  if negb (la =? lb) then Ok false
  else
    let? da := sl_bytes a in
    let? db := sl_bytes b in
    Ok (if cs then list_eqb da db else eq_ignore_ascii_case da db).

(** label_slice.rs:153-157 / 159-163 *)
Definition sl_strip_left (s : labelslice) (k : nat) : res labelslice :=
  let? _ := assert_r (k <? sl_label_count s) in
  Ok (mkSlice (sl_data s) (sl_offsets s) (sl_first s + k) (sl_last s)).
Definition sl_strip_right (s : labelslice) (k : nat) : res labelslice :=
  let? _ := assert_r (k <? sl_label_count s) in
  let? l := csub (sl_last s) k in
  Ok (mkSlice (sl_data s) (sl_offsets s) (sl_first s) l).

(** label_slice.rs:169 *)
Definition special_chars : list N := [34; 40; 41; 46; 59; 92; 64; 36]%N.
Definition is_special (c : N) : bool := existsb (N.eqb c) special_chars.
(** label_slice.rs:189-199: text of one label byte *)
Definition disp_char (c : N) : list N :=
  if is_special c then [92%N; c]
  else if ((32 <? c) && (c <? 127))%N then [c]
  else [92; 48 + (c / 100) mod 10; 48 + (c / 10) mod 10; 48 + c mod 10]%N.
(** label_slice.rs:185-200: [while count > 0] over [data[i..]] *)
Fixpoint disp_label (rest : list N) (count : nat) (buf : list N) : res (list N * list N) :=
  match count with
  | O => Ok (buf, rest)
  | S k =>
      match rest with
      | [] => Panic
      | c :: rest' => disp_label rest' k (buf ++ disp_char c)
      end
  end.
(** label_slice.rs:172-201: [while i < self.len()]; [rest] is [data[i..]]. *)
Fixpoint disp_loop (fuel : nat) (rest buf : list N) : res (list N) :=
  match rest with
  | [] => Ok buf
  | count :: rest' =>
      match fuel with
      | O => Hang
      | S f =>
          if (count =? 0)%N then Ok (buf ++ [46%N])
          else
            let buf := match buf with [] => buf | _ => buf ++ [46%N] end in
            let? (buf', rest'') := disp_label rest' (N.to_nat count) buf in
            disp_loop f rest'' buf'
      end
  end.
(** label_slice.rs:166-205 [Display for LabelSlice] (the bytes written) *)
Definition sl_display (s : labelslice) : res (list N) :=
  let? d := sl_bytes s in disp_loop (length d) d [].
(** name.rs:600-604 [Display for Name] *)
Definition name_display (nm : name) : res (list N) :=
  let? s := slice_of_name nm in sl_display s.

(** name.rs:346-348 *)
Definition get_relation (md : mode) (a b : name) : res cmp_result :=
  let? sa := slice_of_name a in
  let? sb := slice_of_name b in
  sl_compare md false sa sb.
(** name.rs:646-651 [Ord::cmp]: [relation.order.cmp(&0)] *)
Definition name_cmp (md : mode) (a b : name) : res comparison :=
  let? r := get_relation md a b in Ok (cr_order r ?= 0)%Z.

(* ------------------------------------------------------------------ *)
(** * src/label_sequence.rs *)

(** label_sequence.rs:37-45 *)
Definition seq_equals (a b : labelseq) (cs : bool) : bool :=
  if negb (length (ls_data a) =? length (ls_data b)) then false
  else if cs then list_eqb (ls_data a) (ls_data b) else eq_ignore_ascii_case (ls_data a) (ls_data b).
(** label_sequence.rs:51-90; returns (removed piece, what is left in self). *)
Definition seq_split (s : labelseq) (start_label label_count_ : nat) : res (labelseq * labelseq) :=
  let max := length (ls_offsets s) in
  let? _ := ensure_r ((start_label <? max) && (0 <? label_count_)) in
  let lc := if max <? start_label + label_count_ then max - start_label else label_count_ in
  let? last_label := csub (start_label + lc) 1 in
  let? ol := idx (ls_offsets s) last_label in
  let? rl := idx (ls_data s) (N.to_nat ol) in
  let? last_len := u8_add rl 1 in
  let? data_length := u8_add ol last_len in
  let? os := idx (ls_offsets s) start_label in
  let? data_offset := u8_sub data_length os in
  let? data := slice (ls_data s) (N.to_nat os) (N.to_nat data_length) in
  let self_data := firstn (N.to_nat os) (ls_data s) ++ skipn (N.to_nat data_length) (ls_data s) in
  let? offsets := slice (ls_offsets s) start_label (last_label + 1) in
  let self_offsets := firstn start_label (ls_offsets s) ++ skipn (last_label + 1) (ls_offsets s) in
  if start_label =? 0 then
    let? self_offsets := rmap (fun v => u8_sub v data_offset) self_offsets in
    Ok (mkSeq data offsets, mkSeq self_data self_offsets)
  else
    let? tail := rmap (fun v => u8_sub v data_offset) (skipn start_label self_offsets) in
    let self_offsets := firstn start_label self_offsets ++ tail in
    let? cur := idx offsets 0 in
    let? offsets := rmap (fun v => u8_sub v cur) offsets in
    Ok (mkSeq data offsets, mkSeq self_data self_offsets).
(** label_sequence.rs:148-150 *)
Definition is_absolute (s : labelseq) : res bool :=
  let? i := csub (length (ls_data s)) 1 in
  let? b := idx (ls_data s) i in Ok (b =? 0)%N.
(** label_sequence.rs:138-144 *)
Fixpoint rebuild_offsets (data : list N) (pos count : nat) : res (list N) :=
  match count with
  | O => Ok []
  | S k =>
      let? b := idx data pos in
      let? rest := rebuild_offsets data (pos + N.to_nat b + 1) k in
      Ok (as_u8 (N.of_nat pos) :: rest)
  end.
(** label_sequence.rs:101-118: the [fold]; result (middle_seq_is_absolute, last_seq_is_absolute, len, label_count) *)
Fixpoint seq_fold (suffixes : list labelseq) (mid last : bool) (len count : nat) : res (bool * bool * nat * nat) :=
  match suffixes with
  | [] => Ok (mid, last, len, count)
  | s :: rest =>
      let? a := is_absolute s in
      let '(mid, last) :=
        match rest with
        | [] => (mid, if a : bool then last else false)
        | _ => (if a then true else mid, last)
        end in
      seq_fold rest mid last (len + length (ls_data s)) (count + length (ls_offsets s))
  end.
(** label_sequence.rs:92-146 *)
Definition seq_concat_all (self : labelseq) (suffixes : list labelseq) : res name :=
  let? abs := is_absolute self in
  if abs : bool then
    match suffixes with
    | [] => Ok (mkName (ls_data self) (ls_offsets self))
    | _ => Err
    end
  else
    let? (mid, last, final_length, final_count) :=
      seq_fold suffixes false true (length (ls_data self)) (length (ls_offsets self)) in
    let? _ := ensure_r (negb mid && last) in
    let? _ := ensure_r (final_length <=? MAX_WIRE_LEN) in
    let? _ := ensure_r (final_count <=? MAX_LABEL_COUNT) in
    let data := ls_data self ++ flat_map ls_data suffixes in
    let? offsets := rebuild_offsets data 0 final_count in
    Ok (mkName data offsets).
(** label_sequence.rs:167-180 [Ord::cmp] *)
Definition seq_cmp (md : mode) (a b : labelseq) : res comparison :=
  let? sa := slice_of_seq a in
  let? sb := slice_of_seq b in
  let? r := sl_compare md false sa sb in
  Ok (if (cr_order r <? 0)%Z then Lt else if (0 <? cr_order r)%Z then Gt else Eq).
(** label_sequence.rs:188-197 [FromStr] *)
Definition seq_from_str (s : list N) : res labelseq :=
  let? (data, offsets) := string_parse s false in Ok (mkSeq data offsets).

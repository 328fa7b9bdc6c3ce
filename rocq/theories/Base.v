(** Shared vocabulary of the model: results, state monad, checked list access.
    Nothing here models application code; it models the Rust constructs the code is written in. *)
From Coq Require Export List Arith NArith ZArith Lia Bool.
Export ListNotations.
Open Scope N_scope.
Open Scope nat_scope.

(** Outcome of a Rust computation.
    [Ok]    normal result / [Result::Ok];
    [Err]   [Result::Err] (anyhow error; the message is not modelled);
    [Panic] panic!, assert!, unwrap on None/Err, index out of range, integer overflow (debug), null dereference;
    [Hang]  the explicit fuel of a loop ran out (theorems exclude it). *)
Inductive res (A : Type) : Type :=
| Ok (a : A)
| Err
| Panic
| Hang.
Arguments Ok {A} a.
Arguments Err {A}.
Arguments Panic {A}.
Arguments Hang {A}.

(** Integer-overflow behaviour of the build: debug builds panic, release builds wrap. *)
Inductive mode := Debug | Release.

Definition rbind {A B} (m : res A) (k : A -> res B) : res B :=
  match m with Ok a => k a | Err => Err | Panic => Panic | Hang => Hang end.
Notation "'let?' x ':=' m 'in' k" := (rbind m (fun x => k))
  (at level 200, x pattern, m at level 100, k at level 200, right associativity).

(** Computations over a mutable state [S]; the state survives errors. *)
Definition M (S A : Type) : Type := S -> res A * S.
Definition ret {S A} (a : A) : M S A := fun s => (Ok a, s).
Definition fail {S A} : M S A := fun s => (Err, s).
Definition bind {S A B} (m : M S A) (k : A -> M S B) : M S B :=
  fun s => match m s with
           | (Ok a, s') => k a s'
           | (Err, s') => (Err, s')
           | (Panic, s') => (Panic, s')
           | (Hang, s') => (Hang, s')
           end.
Definition get {S} : M S S := fun s => (Ok s, s).
Definition put {S} (s : S) : M S unit := fun _ => (Ok tt, s).
Definition lift {S A} (r : res A) : M S A := fun s => (r, s).
Notation "'let!' x ':=' m 'in' k" := (bind m (fun x => k))
  (at level 200, x pattern, m at level 100, k at level 200, right associativity).
Notation "m ';;' k" := (bind m (fun _ => k)) (at level 199, right associativity).

(** [ensure!(b, ..)] and [assert!(b)]. *)
Definition ensure {S} (b : bool) : M S unit := if b then ret tt else fail.
Definition ensure_r (b : bool) : res unit := if b then Ok tt else Err.
Definition assert_r (b : bool) : res unit := if b then Ok tt else Panic.

(** [l[i]] *)
Definition idx {A} (l : list A) (i : nat) : res A :=
  match nth_error l i with Some a => Ok a | None => Panic end.
(** [&l[a..b]] *)
Definition slice {A} (l : list A) (a b : nat) : res (list A) :=
  if (a <=? b) && (b <=? length l) then Ok (firstn (b - a) (skipn a l)) else Panic.
(** [l[i] = v] *)
Fixpoint upd {A} (l : list A) (i : nat) (v : A) : list A :=
  match l, i with
  | [], _ => []
  | _ :: l', O => v :: l'
  | x :: l', S i' => x :: upd l' i' v
  end.
Definition upd_r {A} (l : list A) (i : nat) (v : A) : res (list A) :=
  if i <? length l then Ok (upd l i v) else Panic.
(** [a - b] on usize *)
Definition csub (a b : nat) : res nat := if b <=? a then Ok (a - b) else Panic.
(** [a + b], [a - b] on u8 (overflow is a panic; proved unreachable wherever it is used). *)
Definition u8_add (a b : N) : res N := if (a + b <? 256)%N then Ok (a + b)%N else Panic.
Definition u8_sub (a b : N) : res N := if (b <=? a)%N then Ok (a - b)%N else Panic.
(** [x as u8], [x as u16] *)
Definition as_u8 (n : N) : N := (n mod 256)%N.
Definition as_u16 (n : N) : N := (n mod 65536)%N.
Definition as_u32 (n : N) : N := (n mod 4294967296)%N.

(** Fold with early exit, for loops over a slice. *)
Fixpoint rfold {A B} (f : A -> B -> res A) (l : list B) (a : A) : res A :=
  match l with
  | [] => Ok a
  | x :: l' => let? a' := f a x in rfold f l' a'
  end.
Fixpoint rmap {A B} (f : A -> res B) (l : list A) : res (list B) :=
  match l with
  | [] => Ok []
  | x :: l' => let? y := f x in let? ys := rmap f l' in Ok (y :: ys)
  end.
Fixpoint mapM_ {S A} (f : A -> M S unit) (l : list A) : M S unit :=
  match l with
  | [] => ret tt
  | x :: l' => f x ;; mapM_ f l'
  end.

Definition byte (b : N) : Prop := (b < 256)%N.
Definition bytes (l : list N) : Prop := Forall byte l.
Definition blen {A} (l : list A) : N := N.of_nat (length l).
Definition is_ok {A} (r : res A) : bool := match r with Ok _ => true | _ => false end.
(** Neither a panic nor an endless loop. *)
Definition safe {A} (r : res A) : Prop := r <> Panic /\ r <> Hang.

(** ASCII text literals as byte lists. *)
From Coq Require Ascii String.
Definition of_string (s : String.string) : list N := List.map Ascii.N_of_ascii (String.list_ascii_of_string s).
Arguments of_string s%string_scope.
Open Scope list_scope.
Open Scope nat_scope.

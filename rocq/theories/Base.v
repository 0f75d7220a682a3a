(** * Base: the result type, boards and loops shared by every model file.

    Rust panics (index out of range, unwrap on None, debug underflow) are the explicit value
    [Panic]; [Err e] is a Rust [Err(e)]; [OutOfFuel] is the value of a fuelled loop that ran
    out of fuel (the theorems show it is never returned). *)
From Coq Require Export List Arith ZArith Lia Bool Permutation.
From Coq Require Export ZifyBool ZifyNat.
Export ListNotations.
#[global] Set Implicit Arguments.
#[global] Unset Strict Implicit.

Inductive R (A : Type) : Type :=
| Ok (a : A)
| Err (e : nat)
| Panic
| OutOfFuel.
Arguments Ok {A} a.
Arguments Err {A} e.
Arguments Panic {A}.
Arguments OutOfFuel {A}.

Definition bind {A B} (m : R A) (k : A -> R B) : R B :=
  match m with
  | Ok a => k a
  | Err e => Err e
  | Panic => Panic
  | OutOfFuel => OutOfFuel
  end.
Notation "'let*' x ':=' m 'in' k" := (bind m (fun x => k))
  (at level 200, x pattern, m at level 100, k at level 200).

(** A Rust [for x in l { s = f(s, x) }] whose body may panic or return an error. *)
Fixpoint foldM {S A} (f : S -> A -> R S) (l : list A) (s : S) : R S :=
  match l with
  | [] => Ok s
  | x :: l' => let* s' := f s x in foldM f l' s'
  end.

(** Boards are [Vec<Vec<i32>>]: a list of rows. *)
Notation board := (list (list Z)).
Notation pos := (nat * nat)%type.

(** [board[i][j]] (read); out of range is a panic. *)
Definition get {A} (b : list (list A)) (i j : nat) : R A :=
  match nth_error b i with
  | Some r => match nth_error r j with Some v => Ok v | None => Panic end
  | None => Panic
  end.

Fixpoint upd_nth {A} (l : list A) (n : nat) (v : A) : list A :=
  match l, n with
  | [], _ => []
  | _ :: t, O => v :: t
  | h :: t, S n' => h :: upd_nth t n' v
  end.

(** [v[i]] (read) on a one-dimensional vector; out of range is a panic. *)
Definition vget {A} (l : list A) (i : nat) : R A :=
  match nth_error l i with Some v => Ok v | None => Panic end.

(** [v[i] = x] on a one-dimensional vector. *)
Definition vset {A} (l : list A) (i : nat) (x : A) : R (list A) :=
  if i <? length l then Ok (upd_nth l i x) else Panic.

(** [board[i][j] = v] (write); out of range is a panic. *)
Definition set {A} (b : list (list A)) (i j : nat) (v : A) : R (list (list A)) :=
  match nth_error b i with
  | Some r => if j <? length r then Ok (upd_nth b i (upd_nth r j v)) else Panic
  | None => Panic
  end.

(** [a..b] *)
Definition rng (a b : nat) : list nat := seq a (b - a).

(** The nested loops [for m in max(1,i)-1..min(row,i+2) { for n in max(1,j)-1..min(column,j+2)]
    used everywhere in utils.rs (e.g. lines 49-50): the in-board 3x3 zone around (i,j), row
    major, (i,j) itself included. *)
Definition zone (row column i j : nat) : list pos :=
  list_prod (rng (Nat.max 1 i - 1) (Nat.min row (i + 2)))
            (rng (Nat.max 1 j - 1) (Nat.min column (j + 2))).

(** The nested loops [for i in 0..row { for j in 0..column]. *)
Definition grid (row column : nat) : list pos :=
  list_prod (seq 0 row) (seq 0 column).

(** [board.len()] *)
Definition nrows {A} (b : list (list A)) : nat := length b.
(** [board[0].len()]; panics on an empty board. *)
Definition ncolsR {A} (b : list (list A)) : R nat :=
  match b with [] => Panic | r :: _ => Ok (length r) end.

(** [vec![vec![v; column]; row]] *)
Definition mkboard {A} (row column : nat) (v : A) : list (list A) :=
  repeat (repeat v column) row.

Definition posb (p q : pos) : bool := (fst p =? fst q) && (snd p =? snd q).

(** exists / forall / count loops with a panicking body, no early exit *)
Fixpoint countM {A} (f : A -> R bool) (l : list A) : R nat :=
  match l with
  | [] => Ok 0
  | x :: l' => let* b := f x in let* n := countM f l' in Ok (if b then S n else n)
  end.
Definition anyM {A} (f : A -> R bool) (l : list A) : R bool :=
  let* n := countM f l in Ok (0 <? n).
(** loop with early exit ([break]) at the first hit *)
Fixpoint findM {A} (f : A -> R bool) (l : list A) : R bool :=
  match l with
  | [] => Ok false
  | x :: l' => let* b := f x in if b then Ok true else findM f l'
  end.

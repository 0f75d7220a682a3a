(** * SolvableSpec: what "solvable without guessing" means (C36-C39, C60). Nothing here refers to the
    code. *)
From Verif Require Import Base Spec.
Open Scope Z_scope.

(** [agrees b l m]: the placement of mines [m] is possible for somebody who has seen the cells [l] of
    the board [b]: they are no mines, and their numbers are right. Nothing is known about the total
    number of mines. *)
Definition agrees (row column : nat) (b : board) (l : list pos) (m : pos -> bool) : Prop :=
  forall q, In q l -> m q = false /\ cell b q = Z.of_nat (adj_count row column m q).

(** The cell [p] is safe in every placement that agrees with what has been seen. *)
Definition forced_safe (row column : nat) (b : board) (l : list pos) (p : pos) : Prop :=
  forall m, agrees row column b l m -> m p = false.

(** [logical b start l]: the cells [l] can be opened one after the other, beginning with [start], each
    later one being provably safe when it is opened. *)
Inductive logical (row column : nat) (b : board) (start : pos) : list pos -> Prop :=
| logical_start : logical row column b start [start]
| logical_open l p : logical row column b start l -> inb row column p ->
    forced_safe row column b l p -> logical row column b start (l ++ [p]).

(** All safe cells can be opened in this way. *)
Definition no_guess (row column : nat) (b : board) (start : pos) : Prop :=
  exists l, logical row column b start l /\
    forall p, inb row column p -> is_mine b p = false -> In p l.

(** However one opens cells by logic, at most [n] unopened cells touch an opened one. *)
Definition small_fronts (row column : nat) (b : board) (start : pos) (n : nat) : Prop :=
  forall l, logical row column b start l ->
    (count (fun q => negb (existsb (posb q) l) && existsb (fun p => adjb p q) l) (positions row column) <= n)%nat.

(** Three kinds of places that cannot be settled by logic from outside.
    A safe cell all of whose neighbours are mines. *)
Definition lone (row column : nat) (b : board) (p : pos) : Prop :=
  inb row column p /\ is_mine b p = false /\
  forall q, inb row column q -> adj p q -> is_mine b q = true.
(** Two cells side by side, exactly one of them a mine, that no other safe cell can tell apart. *)
Definition domino (row column : nat) (b : board) (p q : pos) : Prop :=
  inb row column p /\ inb row column q /\
  (q = (fst p, snd p + 1) \/ q = (fst p + 1, snd p))%nat /\
  is_mine b q = negb (is_mine b p) /\
  forall r, inb row column r -> is_mine b r = false -> r <> p -> r <> q -> (adj r p <-> adj r q).
(** A square of four cells, chequered with two mines, whose corners touch no safe cell outside. In a
    corner of the board the outermost cell may be a mine or not. *)
Definition board_corner (row column : nat) (p : pos) : Prop :=
  (fst p = 0 \/ fst p = row - 1)%nat /\ (snd p = 0 \/ snd p = column - 1)%nat.
Definition square (row column : nat) (b : board) (x y : nat) : Prop :=
  inb row column (x + 1, y + 1)%nat /\
  (exists mine, let fits p m := board_corner row column p \/ is_mine b p = m in
     fits (x, y) mine /\ fits (x, y + 1)%nat (negb mine) /\
     fits (x + 1, y)%nat (negb mine) /\ fits (x + 1, y + 1)%nat mine) /\
  forall r, inb row column r ->
    (fst r + 1 = x \/ fst r = x + 2)%nat -> (snd r + 1 = y \/ snd r = y + 2)%nat -> is_mine b r = true.
Definition unsettled (row column : nat) (b : board) : Prop :=
  (exists p, lone row column b p) \/ (exists p q, domino row column b p q) \/ (exists x y, square row column b x y).

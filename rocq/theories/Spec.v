(** * Spec: the vocabulary of the property statements (no code is modelled here). *)
From Verif Require Import Base.
Open Scope Z_scope.

(** A rectangular [row] x [column] board. *)
Definition rect {A} (row column : nat) (b : list (list A)) : Prop :=
  length b = row /\ Forall (fun r => length r = column) b.

Definition inb (row column : nat) (p : pos) : Prop := (fst p < row /\ snd p < column)%nat.

(** Content of a cell (only meaningful for in-board positions). *)
Definition cell (b : board) (p : pos) : Z := nth (snd p) (nth (fst p) b []) 0.

(** Two distinct cells at king's-move distance 1. *)
Definition near (p q : pos) : Prop :=
  (fst p <= fst q + 1 /\ fst q <= fst p + 1 /\ snd p <= snd q + 1 /\ snd q <= snd p + 1)%nat.
Definition adj (p q : pos) : Prop := p <> q /\ near p q.

Definition nearb (p q : pos) : bool :=
  ((fst p <=? fst q + 1) && (fst q <=? fst p + 1) && (snd p <=? snd q + 1) && (snd q <=? snd p + 1))%nat.
Definition adjb (p q : pos) : bool := negb (posb p q) && nearb p q.

(** All positions of the board. *)
Definition positions (row column : nat) : list pos := list_prod (seq 0 row) (seq 0 column).

Definition count {A} (f : A -> bool) (l : list A) : nat := length (filter f l).

(** Number of board cells adjacent to [p] on which [f] holds. *)
Definition adj_count (row column : nat) (f : pos -> bool) (p : pos) : nat :=
  count (fun q => adjb p q && f q) (positions row column).

Definition is_mine (b : board) (p : pos) : bool := cell b p =? -1.

Definition mine_count (row column : nat) (b : board) : nat :=
  count (is_mine b) (positions row column).

(** A legal minesweeper board: every cell is a mine, or shows its number of adjacent mines. *)
Definition legal_board (row column : nat) (b : board) : Prop :=
  rect row column b /\
  forall p, inb row column p ->
    cell b p = -1 \/ cell b p = Z.of_nat (adj_count row column (is_mine b) p).

(** Reflexive-transitive reachability inside a set [P] of in-board cells by king moves. *)
Inductive connected (P : pos -> Prop) : pos -> pos -> Prop :=
| conn_refl p : P p -> connected P p p
| conn_step p q r : connected P p q -> near q r -> P r -> connected P p r.

(** [reps] is a system of representatives for the components of [P]: the number of
    8-connected components of [P] is [n] iff such a list of length [n] exists. *)
Definition components (P : pos -> Prop) (n : nat) : Prop :=
  exists reps : list pos,
    length reps = n /\ NoDup reps /\ Forall P reps /\
    (forall p, P p -> exists r, In r reps /\ connected P r p) /\
    (forall r1 r2, In r1 reps -> In r2 reps -> connected P r1 r2 -> r1 = r2).

(** Zero cells ("openings") and island cells (numbers with no zero in their neighbourhood). *)
Definition zero_cell (row column : nat) (b : board) (p : pos) : Prop :=
  inb row column p /\ cell b p = 0.
Definition island_cell (row column : nat) (b : board) (p : pos) : Prop :=
  inb row column p /\ cell b p > 0 /\
  forall q, inb row column q -> near p q -> cell b q <> 0.
Definition island_cellb (row column : nat) (b : board) (p : pos) : bool :=
  (0 <? cell b p) &&
  forallb (fun q => negb (nearb p q && (cell b q =? 0))) (positions row column).

(** The cells that a click list opens on [b] when the visible board is [g]: the clicked cells, and
    every covered unflagged (10 or 12) neighbour of an opened zero. *)
Inductive opens (row column : nat) (b g : board) (clicks : list pos) : pos -> Prop :=
| opens_click p : In p clicks -> opens row column b g clicks p
| opens_spread p q :
    opens row column b g clicks p -> cell b p = 0 -> inb row column q -> adj p q ->
    (cell g q = 10 \/ cell g q = 12) -> opens row column b g clicks q.

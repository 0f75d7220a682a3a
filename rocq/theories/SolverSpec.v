(** * SolverSpec: the vocabulary of the solver properties (C27-C39). *)
From Verif Require Import Base Spec Matrix Solve.
Open Scope Z_scope.

(** A placement says for every cell whether it is a mine. *)
Notation placement := (pos -> bool).

(** Visible positions: 0-8 open numbers (9 is treated like a number by the code), 10 covered,
    11 flagged as a mine, 12 marked as safe. *)
Definition number (g : board) (p : pos) : Prop := 0 <= cell g p < 10.
Definition coveredb (g : board) (p : pos) : bool := cell g p =? 10.
Definition flaggedb (g : board) (p : pos) : bool := cell g p =? 11.

(** [consistent row column g m]: the placement [m] agrees with the position [g]: flagged cells are
    mines, covered cells are free, every other cell is safe, and every open number is the number of
    adjacent mines. *)
Definition consistent (row column : nat) (g : board) (m : placement) : Prop :=
  forall p, inb row column p ->
    (cell g p = 11 -> m p = true) /\
    (cell g p <> 10 -> cell g p <> 11 -> m p = false) /\
    (number g p -> cell g p = Z.of_nat (adj_count row column m p)).

(** A number that touches a covered cell, and a covered cell that touches a number. *)
Definition front_number (row column : nat) (g : board) (p : pos) : Prop :=
  inb row column p /\ number g p /\ exists q, inb row column q /\ near p q /\ cell g q = 10.
Definition front_cell (row column : nat) (g : board) (q : pos) : Prop :=
  inb row column q /\ cell g q = 10 /\ exists p, inb row column p /\ near p q /\ number g p.

(** The number at [p] is explained by the flags and by the covered cells that [m] declares mines. *)
Definition number_ok (row column : nat) (g : board) (m : placement) (p : pos) : Prop :=
  cell g p = Z.of_nat (adj_count row column (flaggedb g) p) +
             Z.of_nat (adj_count row column (fun q => coveredb g q && m q) p).

(** Meaning of a system of equations. *)
Definition b2z (b : bool) : Z := if b then 1 else 0.
Fixpoint dot (a : list Z) (x : list pos) (v : placement) : Z :=
  match a, x with
  | c :: a, p :: x => c * b2z (v p) + dot a x v
  | _, _ => 0
  end.
Definition sat_eq (x : list pos) (v : placement) (e : equation) : Prop := dot (fst e) x v = snd e.
Definition sat (v : placement) (B : block) : Prop := Forall (sat_eq (vars B) v) (eqs B).
Definition sats (v : placement) (bl : list block) : Prop := Forall (sat v) bl.

(** A well-formed system: as many coefficients as unknowns, all 0 or 1, distinct unknowns. *)
Definition wf_eq (n : nat) (e : equation) : Prop :=
  length (fst e) = n /\ Forall (fun c => c = 0 \/ c = 1) (fst e).
Definition wf (B : block) : Prop := Forall (wf_eq (length (vars B))) (eqs B) /\ NoDup (vars B).

(** [B] is exactly the system of the numbers [nums] of position [g]. *)
Definition describes (row column : nat) (g : board) (nums : list pos) (B : block) : Prop :=
  NoDup (vars B) /\
  (forall q, In q (vars B) <-> inb row column q /\ cell g q = 10 /\ exists n, In n nums /\ near n q) /\
  eqs B = map (fun n => (map (fun q => if nearb n q then 1 else 0) (vars B),
                         cell g n - Z.of_nat (adj_count row column (flaggedb g) n))) nums.

(** Counting solutions. [binom] is Pascal's triangle; [subs l] lists the sublists of [l] (for a list
    without repetition: every subset once). A solution of a block is the set of its unknowns that are
    mines. *)
Fixpoint binom (n k : nat) : nat :=
  match n, k with
  | _, O => 1
  | O, S _ => 0
  | S n, S k => binom n k + binom n (S k)
  end.
Fixpoint subs {A} (l : list A) : list (list A) :=
  match l with
  | [] => [[]]
  | a :: l => subs l ++ map (cons a) (subs l)
  end.
Definition mines_at (s : list pos) : placement := fun p => mem_pos p s.
Definition satb (v : placement) (B : block) : bool :=
  forallb (fun e => dot (fst e) (vars B) v =? snd e) (eqs B).
Definition solutions (B : block) : list (list pos) := filter (fun s => satb (mines_at s) B) (subs (vars B)).
(** solutions with [k] mines, and those among them where [p] is a mine *)
Definition n_sol (B : block) (k : nat) : nat := count (fun s => length s =? k)%nat (solutions B).
Definition n_sol_at (B : block) (k : nat) (p : pos) : nat :=
  count (fun s => (length s =? k)%nat && mem_pos p s) (solutions B).

(** [p] has the value [b] in every mine placement that agrees with the position. *)
Definition determined (row column : nat) (g : board) (p : pos) (b : bool) : Prop :=
  forall m, consistent row column g m -> m p = b.
(** A position that can arise: some placement agrees with it. *)
Definition satisfiable (row column : nat) (g : board) : Prop :=
  rect row column g /\ (0 < row)%nat /\ exists m, consistent row column g m.

(** [bd] is [g] where the cells [safe] now show 12, the cells [mines] show 11, nothing else changed *)
Definition marked_with (row column : nat) (g : board) (safe mines : list pos) (bd : board) : Prop :=
  rect row column bd /\
  (forall p, In p mines -> cell bd p = 11) /\ (forall p, In p safe -> cell bd p = 12) /\
  (forall p, ~ In p mines -> ~ In p safe -> cell bd p = cell g p).

(** The coefficient of the unknown [q] in an equation over the unknowns [x]. *)
Fixpoint coef (a : list Z) (x : list pos) (q : pos) : Z :=
  match a, x with
  | c :: a, p :: x => if posb p q then c else coef a x q
  | _, _ => 0
  end.
(** [p] and [q] have the same coefficient in every equation; [p] is the only unknown with its column. *)
Definition same_column (B : block) (p q : pos) : Prop := forall e, In e (eqs B) -> coef (fst e) (vars B) p = coef (fst e) (vars B) q.
Definition alone (B : block) (p : pos) : Prop := forall q, In q (vars B) -> same_column B p q -> q = p.

(** A system like those of a minesweeper position: 0/1 coefficients, distinct unknowns, at least one
    equation, every unknown occurs, every equation has between one and eight unknowns. *)
Definition good_system (B : block) : Prop :=
  wf B /\ eqs B <> [] /\
  (forall k, (k < length (vars B))%nat -> exists e, In e (eqs B) /\ nth k (fst e) 0 = 1) /\
  Forall (fun e => In 1 (fst e) /\ (count (Z.eqb 1) (fst e) <= 8)%nat) (eqs B).

(** [deductions g bl bd N I]: [bl] are the blocks and [bd] the board after [refresh_matrixs(g)] and any
    sequence of calls of [solve_direct] and [solve_minus]; [N], [I]: the safe cells and mines they
    returned. *)
Inductive deductions (g : board) : list block -> board -> list pos -> list pos -> Prop :=
| ded_start bl k1 k2 : refresh_matrixs g = Ok (bl, k1, k2) -> deductions g bl g [] []
| ded_direct bl bd N I bl' n i bd' : deductions g bl bd N I -> solve_direct bl bd = Ok (bl', n, i, bd') ->
    deductions g bl' bd' (N ++ n) (I ++ i)
| ded_minus bl bd N I bl' n i bd' : deductions g bl bd N I -> solve_minus bl bd = Ok (bl', n, i, bd') ->
    deductions g bl' bd' (N ++ n) (I ++ i).
(** every mark above 10 turned back into a covered cell *)
Definition forget (g : board) : board := map (map (fun v => if 10 <? v then 10 else v)) g.

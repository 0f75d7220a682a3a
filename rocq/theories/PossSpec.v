(** * PossSpec: probabilities as ratios of numbers of mine placements (C33, C65). *)
From Verif Require Import Base Spec Matrix SolverSpec.
Open Scope nat_scope.

(** The decision procedure for [consistent]. *)
Definition consistentb (row column : nat) (g : board) (m : placement) : bool :=
  forallb (fun p => implb (cell g p =? 11)%Z (m p)
                    && implb (negb (cell g p =? 10)%Z && negb (cell g p =? 11)%Z) (negb (m p))
                    && implb ((0 <=? cell g p)%Z && (cell g p <? 10)%Z) (cell g p =? Z.of_nat (adj_count row column m p))%Z)
          (positions row column).

Definition covered_cells (row column : nat) (g : board) : list pos := filter (coveredb g) (positions row column).
Definition flag_count (row column : nat) (g : board) : nat := count (flaggedb g) (positions row column).
(** the mines: the flags and the set [s] of covered cells *)
Definition with_flags (g : board) (s : list pos) : placement := fun p => flaggedb g p || mines_at s p.

(** [s], a set of covered cells, explains the position; it is a world with [M] mines if there are [M]
    mines altogether. *)
Definition explains (row column : nat) (g : board) (s : list pos) : bool := consistentb row column g (with_flags g s).
Definition worldb (row column : nat) (g : board) (M : nat) (s : list pos) : bool :=
  explains row column g s && (flag_count row column g + length s =? M).
(** The number of worlds, of those with a mine at [q], of those without mines in [l]. *)
Definition n_worlds (row column : nat) (g : board) (M : nat) : nat :=
  count (worldb row column g M) (subs (covered_cells row column g)).
Definition n_worlds_at (row column : nat) (g : board) (M : nat) (q : pos) : nat :=
  count (fun s => worldb row column g M s && mines_at s q) (subs (covered_cells row column g)).
Definition n_worlds_free (row column : nat) (g : board) (M : nat) (l : list pos) : nat :=
  count (fun s => worldb row column g M s && forallb (fun q => negb (with_flags g s q)) l) (subs (covered_cells row column g)).

(** A covered cell that touches no opened cell. *)
Definition inner_cell (row column : nat) (g : board) (q : pos) : Prop :=
  inb row column q /\ cell g q = 10%Z /\ forall p, inb row column p -> near p q -> ~ number g p.

(** Values that occur in positions: numbers, covered cells, flags, safe marks. *)
Definition proper (row column : nat) (g : board) : Prop :=
  forall p, inb row column p -> (0 <= cell g p)%Z.
(** Every block of cells that have to be considered together has at most 55 cells. *)
Definition small_blocks (g : board) : Prop :=
  forall bl k1 k2, refresh_matrixs g = Ok (bl, k1, k2) -> Forall (fun B => length (vars B) <= 55) bl.

(** The least and the greatest number of mines of an explanation. *)
Definition least_mines (row column : nat) (g : board) (r : nat) : Prop :=
  n_worlds row column g r <> 0 /\ forall M, M < r -> n_worlds row column g M = 0.
Definition most_mines (row column : nat) (g : board) (r : nat) : Prop :=
  n_worlds row column g r <> 0 /\ forall M, r < M -> n_worlds row column g M = 0.
Definition n_inner (row column : nat) (g : board) : nat :=
  count (fun q => coveredb g q && negb (existsb (fun p => nearb p q && (0 <=? cell g p)%Z && (cell g p <? 10)%Z) (positions row column))) (positions row column).

(** The fraction (a, b) is the probability x / n (and is not NaN, unless n = 0). *)
Definition is_prob (f : nat * nat) (x n : nat) : Prop := fst f * n = x * snd f /\ (n <> 0 -> snd f <> 0).
(** worlds with a mine at [q], [q] any cell *)
Definition n_worlds_mine (row column : nat) (g : board) (M : nat) (q : pos) : nat :=
  count (fun s => worldb row column g M s && with_flags g s q) (subs (covered_cells row column g)).

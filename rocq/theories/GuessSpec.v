(** * GuessSpec: the vocabulary of C64. *)
From Verif Require Import Base Spec Solve SolverSpec.
Open Scope Z_scope.

(** [q] can be reached from [p] through covered cells *)
Inductive same_region (row column : nat) (g : board) (p : pos) : pos -> Prop :=
| sr_refl : same_region row column g p p
| sr_step q r : same_region row column g p q -> inb row column r -> near q r -> cell g r = 10 -> same_region row column g p r.

(** [q] is linked to [p]: a chain of covered cells, each next to the same open number as the one before *)
Inductive linked (row column : nat) (g : board) (p : pos) : pos -> Prop :=
| lk_refl : linked row column g p p
| lk_step q r n : linked row column g p q -> front_number row column g n -> near n q -> near n r ->
    inb row column r -> cell g r = 10 -> linked row column g p r.

(** no more than [k] covered cells touch an open number *)
Definition front_le (row column : nat) (g : board) (k : nat) : Prop :=
  forall l, NoDup l -> Forall (front_cell row column g) l -> (length l <= k)%nat.

(** what the search decides about the cell [c] it looks at *)
Definition verdict (row column : nat) (h : board) (border : bool) (c : pos) (r : Z) : Prop :=
  1 <= r <= 4 /\
  (r = 1 -> border = true /\ determined row column h c false) /\
  (r = 4 -> determined row column h c true) /\
  (r = 3 -> exists q, front_cell row column h q /\ determined row column h q false) /\
  (front_le row column h ENUM_LIMIT ->
     (border = true -> determined row column h c false -> r = 1) /\
     (r = 2 -> forall q, linked row column h c q -> ~ determined row column h q false)).


(** * ExpSpec: what utils.rs 1423-1511 [cal_bbbv_exp] really counts (no code is modelled here). *)
From Verif Require Import Base Spec.
Open Scope Z_scope.

(** Reading order: row by row, each row from the left. *)
Definition before (q p : pos) : Prop := (fst q < fst p \/ fst q = fst p /\ snd q < snd p)%nat.
Definition beforeb (q p : pos) : bool := ((fst q <? fst p) || (fst q =? fst p) && (snd q <? snd p))%nat.

(** A zero cell none of whose neighbours that come earlier in reading order is a zero. *)
Definition scan_start (row column : nat) (b : board) (p : pos) : Prop :=
  zero_cell row column b p /\
  forall q, inb row column q -> near p q -> before q p -> cell b q <> 0.
Definition scan_startb (row column : nat) (b : board) (p : pos) : bool :=
  (cell b p =? 0) &&
  forallb (fun q => negb (nearb p q && beforeb q p && (cell b q =? 0))) (positions row column).

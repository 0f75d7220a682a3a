(** * OpenFloat: [cal_is_op_possibility_cells] (algorithms.rs 510-545) in the f64 arithmetic of the code,
    on top of PossFloat. *)
From Coq Require Import ZArith.
From Flocq Require Import Core IEEE754.BinarySingleNaN IEEE754.Binary IEEE754.Bits.
From Verif Require Import Base LayMine Matrix Solve Utils FloatTime FloatQuot BigNum Possibility PossFloat.
Open Scope nat_scope.

Definition fsub : binary64 -> binary64 -> binary64 := b64_minus mode_NE.
(** algorithms.rs 522-541: the neighbour [(m, n)] of [cell] on the caller's board [g] and the marked copy. The
    loop has [break 'outer]: [None] in the state means that it was left with the answer 0.0. *)
Definition op_step_f (g : board) (minenum : binary64) (cell : pos) (st : option binary64 * board) (mn : pos) : R (option binary64 * board) :=
  let '(st, gm) := st in
  let '(m, n) := mn in
      match st with
      | None => Ok (None, gm)
      | Some x =>
          let* v := get g m n in
          if ((v <? 10)%Z && posb (m, n) cell) || (v =? 11)%Z then Ok (None, gm)
          else if (v =? 12)%Z || (v <? 10)%Z then Ok (Some x, gm)
          else
            match possibility_onboard_f64 gm minenum with
            | Ok (p, _) => let* f := get p m n in
                           let* gm := set gm m n 12%Z in
                           Ok (Some (fmul x (fsub f_one f)), gm)
            | Err _ => Ok (None, gm)
            | Panic => Panic
            | OutOfFuel => OutOfFuel
            end
      end.
(** 515-543, for one cell *)
Definition op_possibility_f (g : board) (minenum : binary64) (cell : pos) : R binary64 :=
  let row := nrows g in
  let* column := ncolsR g in
  let* (st, _) := foldM (op_step_f g minenum cell) (zone row column (fst cell) (snd cell)) (Some f_one, g) in
  Ok (match st with None => f_zero | Some x => x end).
(** 510-545 *)
Definition op_possibilities_f64 (g : board) (minenum : binary64) (cells : list pos) : R (list binary64) :=
  mapM (op_possibility_f g minenum) cells.

(** * Metrics: model of the board statistics of base/src/utils.rs (cal_op, cal_isl, 3BV, ...). *)
From Verif Require Import Base.
Open Scope Z_scope.

(** [get_row] / [get_column] of [Vec<Vec<i32>>] (safe_board.rs 232-246): [self.len()] and
    [self[0].len()]. *)
Definition get_row (b : board) : nat := nrows b.
Definition get_column (b : board) : R nat := ncolsR b.

(** utils.rs 45-56 [infect_board]: recursive flood of zeros with 1. The recursion depth is bounded
    by explicit fuel. [row], [column] are recomputed by each call in Rust; they never change. *)
Fixpoint infect_board (fuel : nat) (row column : nat) (b : board) (x y : nat) : R board :=
  match fuel with
  | O => OutOfFuel
  | S f =>
      let* b := set b x y 1 in
      foldM (fun b '(i, j) =>
               let* v := get b i j in
               if v =? 0 then infect_board f row column b i j else Ok b)
            (zone row column x y) b
  end.

(** utils.rs 20-42 [cal_op]. The initial element-wise copy of the board is the board itself. *)
Definition cal_op (b : board) : R nat :=
  let row := get_row b in
  let* column := get_column b in
  let* r := foldM (fun '(b, op) '(i, j) =>
                     let* v := get b i j in
                     if v =? 0 then
                       let* b := infect_board (row * column + 1) row column b i j in
                       Ok (b, S op)
                     else Ok (b, op))
                  (grid row column) (b, 0%nat) in
  Ok (snd r).

(** utils.rs 60-88 [cal_isl]. *)
Definition cal_isl (raw : board) : R nat :=
  let row := get_row raw in
  let* column := get_column raw in
  let* b := foldM (fun b '(i, j) =>
                     let* v := get raw i j in
                     if v <=? 0 then Ok b
                     else
                       let* hit := findM (fun '(m, n) => let* w := get raw m n in Ok (w =? 0))
                                         (zone row column i j) in
                       if hit then Ok b else set b i j 0)
                  (grid row column) (mkboard row column 1) in
  cal_op b.

(** utils.rs 91-108 [cal_cell_nums]: nine counters indexed by the cell value. *)
Definition cal_cell_nums (raw : board) : R (list nat) :=
  let row := get_row raw in
  let* column := get_column raw in
  foldM (fun ans '(i, j) =>
           let* v := get raw i j in
           if v <? 0 then Ok ans
           else
             let* c := vget ans (Z.to_nat v) in
             vset ans (Z.to_nat v) (S c))
        (grid row column) (repeat 0%nat 9).

(** utils.rs 563-587 [cal3BVonIsland]. *)
Definition cal3BVonIsland (b : board) : R nat :=
  let row := get_row b in
  let* column := get_column b in
  foldM (fun num '(i, j) =>
           let* v := get b i j in
           if 0 <? v then
             let* hit := anyM (fun '(x, y) => let* w := get b x y in Ok (w =? 0))
                              (zone row column i j) in
             Ok (if hit then num else S num)
           else Ok num)
        (grid row column) 0%nat.

(** utils.rs 590-596 [cal_bbbv]. *)
Definition cal_bbbv (b : board) : R nat :=
  let* a := cal3BVonIsland b in
  let* o := cal_op b in
  Ok (a + o)%nat.

(** * Matrix: model of the constraint matrices of base/src/utils.rs.

    Representation: Rust keeps the coefficients ([matrix_a], one row per equation) and the right
    hand sides ([matrix_b]) in two parallel vectors; here an equation is one pair
    (coefficients, right hand side) and a block is its equations together with the positions of
    its unknowns ([matrix_x]). The three outer vectors (one entry per block) are one list of blocks.
    [i32] arithmetic is unbounded. *)
From Verif Require Import Base.
Open Scope Z_scope.

Notation equation := (list Z * Z)%type.
Record block := Blk { eqs : list equation; vars : list pos }.

(** [Vec::remove(i)] *)
Fixpoint remove_nth {A} (l : list A) (n : nat) : list A :=
  match l, n with
  | [], _ => []
  | _ :: t, O => t
  | h :: t, S n' => h :: remove_nth t n'
  end.
Definition vremove {A} (l : list A) (i : nat) : R (list A) :=
  if (i <? length l)%nat then Ok (remove_nth l i) else Panic.

Fixpoint mapM {A B} (f : A -> R B) (l : list A) : R (list B) :=
  match l with
  | [] => Ok []
  | x :: l' => let* y := f x in let* ys := mapM f l' in Ok (y :: ys)
  end.

(** [v.contains(&p)] *)
Definition mem_pos (p : pos) (l : list pos) : bool := existsb (posb p) l.

(** utils.rs 141-158, one neighbour (m,n) of the number being processed. State: the finished
    equations, the unknowns, the coefficients and right hand side of the row under construction
    (in Rust the last row of MatrixA / Matrixb). Writing 1 at every index holding (m,n) is the
    [map]. *)
Definition refresh_matrix_cell (g : board) (st : list equation * list pos * list Z * Z) (p : pos)
  : R (list equation * list pos * list Z * Z) :=
  let '(es, x, a, b) := st in
  let* w := get g (fst p) (snd p) in
  if w =? 11 then Ok (es, x, a, b - 1)
  else if w =? 10 then
    if mem_pos p x then
      Ok (es, x, map (fun '(c, q) => if posb p q then 1 else c) (combine a x), b)
    else
      Ok (map (fun '(c, r) => (c ++ [0], r)) es, x ++ [p], a ++ [1], b)
  else Ok (es, x, a, b).

(** utils.rs 112-166 [refresh_matrix]. *)
Definition refresh_matrix (g : board) : R block :=
  let row := nrows g in
  let* column := ncolsR g in
  let* st := foldM (fun '(es, x) '(i, j) =>
                let* v := get g i j in
                if (0 <? v) && (v <? 10) then
                  let* flag := anyM (fun '(m, n) => let* w := get g m n in Ok (w =? 10))
                                    (zone row column i j) in
                  if flag then
                    let* st := foldM (refresh_matrix_cell g) (zone row column i j)
                                     (es, x, repeat 0 (length x), v) in
                    let '(es, x, a, b) := st in
                    Ok (es ++ [(a, b)], x)
                  else Ok (es, x)
                else Ok (es, x))
              (grid row column) ([], []) in
  Ok (Blk (fst st) (snd st)).

(** utils.rs 192-223: the numbers next to a covered cell, the number of covered cells next to no
    number, the number of flags. *)
Definition scan_board (g : board) (row column : nat) : R (list pos * nat * nat) :=
  foldM (fun '(cells, unknow, mines) '(i, j) =>
           let* v := get g i j in
           if (0 <=? v) && (v <? 10) then
             let* hit := findM (fun '(m, n) => let* w := get g m n in Ok (w =? 10)) (zone row column i j) in
             Ok (if hit then cells ++ [(i, j)] else cells, unknow, mines)
           else if v =? 10 then
             let* side := anyM (fun '(m, n) => let* w := get g m n in Ok (w <? 10)) (zone row column i j) in
             Ok (cells, if side then unknow else S unknow, mines)
           else if v =? 11 then Ok (cells, unknow, S mines)
           else Ok (cells, unknow, mines))
        (grid row column) ([], 0%nat, 0%nat).

(** utils.rs 234-244 and 266-277: the covered neighbours of number (i,j) are added to the block's
    unknowns (if absent), and its right hand side is the number minus the adjacent flags. For the
    first number of a block Rust pushes without the [contains] test; the list is empty and the zone
    has no repetition, so the test is always true there. *)
Definition add_number (g : board) (row column : nat) (x : list pos) (i j : nat) : R (list pos * Z) :=
  let* v := get g i j in
  let* st := foldM (fun '(x, fl) '(m, n) =>
                      let* w := get g m n in
                      Ok (if (w =? 10) && negb (mem_pos (m, n) x) then x ++ [(m, n)] else x,
                          if w =? 11 then fl + 1 else fl))
                   (zone row column i j) (x, 0) in
  Ok (fst st, v - snd st).

(** utils.rs 254-265: do the numbers at t and e share a covered cell? *)
Definition is_neighbor (g : board) (row column : nat) (e t : pos) : R bool :=
  if ((fst e + 3 <=? fst t) || (fst t + 3 <=? fst e) || (snd e + 3 <=? snd t) || (snd t + 3 <=? snd e))%nat
  then Ok false
  else anyM (fun '(m, n) => let* w := get g m n in Ok (w =? 10))
         (list_prod (rng (Nat.max 1 (Nat.max (fst t) (fst e)) - 1) (Nat.min row (Nat.min (fst t + 2) (fst e + 2))))
                    (rng (Nat.max 1 (Nat.max (snd t) (snd e)) - 1) (Nat.min column (Nat.min (snd t + 2) (snd e + 2))))).

(** utils.rs 251-283: one number [e] of the work list is taken out; every number of [all_cell]
    (index 0 excepted) that shares a covered cell with it joins the block. Rust walks the indices
    downwards and removes in place; here the survivors are rebuilt. *)
Definition grow_step (g : board) (row column : nat) (e : pos)
    (st : list pos * list pos * list pos * list Z * list pos) (t : pos)
  : R (list pos * list pos * list pos * list Z * list pos) :=
  let '(keep, x, nums, bs, temp) := st in
  let* nb := is_neighbor g row column e t in
  if nb then
    let* r := add_number g row column x (fst t) (snd t) in
    Ok (keep, fst r, nums ++ [t], bs ++ [snd r], temp ++ [t])
  else Ok (t :: keep, x, nums, bs, temp).

(** utils.rs 247-284: [while !temp_cells.is_empty()]; [rest] is [all_cell[1..]]. *)
Fixpoint grow (fuel : nat) (g : board) (row column : nat)
    (rest x nums : list pos) (bs : list Z) (temp : list pos) : R (list pos * list pos * list pos * list Z) :=
  match temp with
  | [] => Ok (rest, x, nums, bs)
  | e :: temp =>
      match fuel with
      | O => OutOfFuel
      | S f =>
          let* st := foldM (grow_step g row column e) (rev rest) ([], x, nums, bs, temp) in
          let '(rest, x, nums, bs, temp) := st in
          grow f g row column rest x nums bs temp
      end
  end.

(** utils.rs 285-295: the coefficient is 1 iff the unknown touches the number. *)
Definition touch (p q : pos) : bool :=
  ((fst p <=? fst q + 1) && (fst q <=? fst p + 1) && (snd p <=? snd q + 1) && (snd q <=? snd p + 1))%nat.
Definition build_rows (nums : list pos) (bs : list Z) (x : list pos) : list equation :=
  combine (map (fun n => map (fun q => if touch n q then 1 else 0) x) nums) bs.

(** utils.rs 226-298: [while !all_cell.is_empty()]. *)
Fixpoint blocks_loop (fuel : nat) (g : board) (row column : nat) (cells : list pos) : R (list block) :=
  match cells with
  | [] => Ok []
  | c :: rest =>
      match fuel with
      | O => OutOfFuel
      | S f =>
          let* r := add_number g row column [] (fst c) (snd c) in
          let* st := grow (S (length rest)) g row column rest (fst r) [c] [snd r] [c] in
          let '(rest, x, nums, bs) := st in
          let* bl := blocks_loop f g row column rest in
          Ok (Blk (build_rows nums bs x) x :: bl)
      end
  end.

(** utils.rs 170-300 [refresh_matrixs]: blocks, number of inner covered cells, number of flags. *)
Definition refresh_matrixs (g : board) : R (list block * nat * nat) :=
  let row := nrows g in
  let* column := ncolsR g in
  let* sc := scan_board g row column in
  let '(cells, unknow, mines) := sc in
  let* bl := blocks_loop (length cells) g row column cells in
  Ok (bl, unknow, mines).

(** utils.rs 1575-1608, the inner [loop] of [chunk_matrix]: columns reached, then rows reached,
    until nothing new. [rows] and [cols] are the boolean marks. *)
Fixpoint chunk_reach (fuel : nat) (es : list equation) (rows cols : list bool) (colbuf : list nat)
  : R (list bool * list bool) :=
  match colbuf with
  | [] => Ok (rows, cols)
  | _ =>
    match fuel with
    | O => OutOfFuel
    | S f =>
      let* st := foldM (fun '(rows, rb) i =>
                   foldM (fun '(rows, rb) idr =>
                            let* e := vget es idr in
                            let* c := vget (fst e) i in
                            let* seen := vget rows idr in
                            if (1 <=? c) && negb seen then
                              let* rows := vset rows idr true in Ok (rows, rb ++ [idr])
                            else Ok (rows, rb))
                         (seq 0 (length es)) (rows, rb))
                   colbuf (rows, []) in
      let '(rows, rowbuf) := st in
      match rowbuf with
      | [] => Ok (rows, cols)
      | _ =>
        let* st := foldM (fun '(cols, cb) i =>
                     let* e := vget es i in
                     foldM (fun '(cols, cb) idc =>
                              let* c := vget (fst e) idc in
                              let* seen := vget cols idc in
                              if (1 <=? c) && negb seen then
                                let* cols := vset cols idc true in Ok (cols, cb ++ [idc])
                              else Ok (cols, cb))
                           (seq 0 (length (fst e))) (cols, cb))
                     rowbuf (cols, []) in
        let '(cols, colbuf) := st in
        chunk_reach f es rows cols colbuf
      end
    end
  end.

(** indices marked true, in increasing order *)
Definition marked (l : list bool) : list nat := filter (fun i => nth i l false) (seq 0 (length l)).

(** utils.rs 1567-1657 [chunk_matrix]: repeatedly split off the part reachable from column 0.
    Rows and columns of a part are listed in decreasing order (sort_by(|a, b| b.cmp(a))). *)
Fixpoint chunk_matrix (fuel : nat) (es : list equation) (x : list pos) : R (list block) :=
  match fuel with
  | O => OutOfFuel
  | S f =>
      let* e0 := vget es 0 in
      let ncol := length (fst e0) in
      let* cols := vset (repeat false ncol) 0 true in
      let* st := chunk_reach (S ncol) es (repeat false (length es)) cols [0%nat] in
      let rows := rev (marked (fst st)) in
      let cols := rev (marked (snd st)) in
      let* bes := mapM (fun i => let* e := vget es i in
                                 let* a := mapM (fun j => vget (fst e) j) cols in
                                 Ok (a, snd e)) rows in
      let* bx := mapM (fun j => vget x j) cols in
      let* es' := foldM (fun es i => vremove es i) rows es in
      let* st := foldM (fun '(es, x) j =>
                   let* es := mapM (fun '(a, b) => let* a := vremove a j in Ok (a, b)) es in
                   let* x := vremove x j in
                   Ok (es, x)) cols (es', x) in
      let '(es', x') := st in
      match es' with
      | [] => Ok [Blk bes bx]
      | _ => let* bl := chunk_matrix f es' x' in Ok (Blk bes bx :: bl)
      end
  end.

(** utils.rs 1541-1563 [chunk_matrixes]: the blocks are taken from the end. Each round of
    [chunk_matrix] removes at least one column, so the number of columns plus one bounds them. *)
Definition chunk_matrixes (bl : list block) : R (list block) :=
  foldM (fun out b => let* parts := chunk_matrix (S (length (vars b))) (eqs b) (vars b) in Ok (out ++ parts))
        (rev bl) [].

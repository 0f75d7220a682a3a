(** * BoardCache: model of [Board] and [GameBoard], base/src/board.rs. *)
From Verif Require Import Base Metrics Matrix Solve.
Open Scope Z_scope.

(** board.rs 161-181 [Board]. [c_cells] are cell0..cell8. *)
Record cboard := CBoard {
  c_board : board;
  c_bbbv : nat; c_has_bbbv : bool;
  c_op : nat; c_has_op : bool;
  c_isl : nat; c_has_isl : bool;
  c_cells : list nat; c_has_cells : bool }.

(** board.rs 184-204 [Board::new] *)
Definition cboard_new (b : board) : cboard := CBoard b 0 false 0 false 0 false (repeat 0%nat 9) false.

(** board.rs 205-216 [get_bbbv]: the sum is returned but never stored in [bbbv] *)
Definition get_bbbv (c : cboard) : R (nat * cboard) :=
  if c_has_bbbv c then Ok (c_bbbv c, c)
  else
    let* a := cal3BVonIsland (c_board c) in
    let* op := (if c_has_op c then Ok (c_op c) else cal_op (c_board c)) in
    Ok ((a + op)%nat, CBoard (c_board c) (c_bbbv c) true op true (c_isl c) (c_has_isl c) (c_cells c) (c_has_cells c)).

(** board.rs 217-223 [get_op]: the value is not stored *)
Definition get_op (c : cboard) : R (nat * cboard) :=
  if c_has_op c then Ok (c_op c, c)
  else
    let* o := cal_op (c_board c) in
    Ok (o, CBoard (c_board c) (c_bbbv c) (c_has_bbbv c) (c_op c) true (c_isl c) (c_has_isl c) (c_cells c) (c_has_cells c)).

(** board.rs 224-230 [get_isl] *)
Definition get_isl (c : cboard) : R (nat * cboard) :=
  if c_has_isl c then Ok (c_isl c, c)
  else
    let* o := cal_isl (c_board c) in
    Ok (o, CBoard (c_board c) (c_bbbv c) (c_has_bbbv c) (c_op c) (c_has_op c) (c_isl c) true (c_cells c) (c_has_cells c)).

(** board.rs 231-305 [get_cell0] .. [get_cell8] *)
Definition get_cell (c : cboard) (k : nat) : R (nat * cboard) :=
  let* c := (if c_has_cells c then Ok c
             else let* ans := cal_cell_nums (c_board c) in
                  Ok (CBoard (c_board c) (c_bbbv c) (c_has_bbbv c) (c_op c) (c_has_op c) (c_isl c) (c_has_isl c) ans true)) in
  let* v := vget (c_cells c) k in
  Ok (v, c).

(** the queries of a session on one [Board] *)
Inductive query := Qbbbv | Qop | Qisl | Qcell (k : nat).
Definition ask (c : cboard) (q : query) : R (nat * cboard) :=
  match q with Qbbbv => get_bbbv c | Qop => get_op c | Qisl => get_isl c | Qcell k => get_cell c k end.
Fixpoint asks (c : cboard) (qs : list query) : R (list nat) :=
  match qs with
  | [] => Ok []
  | q :: qs => let* (v, c) := ask c q in let* l := asks c qs in Ok (v :: l)
  end.

(** board.rs 9-21 [GameBoard] without the probabilities ([poss], [has_poss]). *)
Record gboard := GBoard {
  gb_board : board; gb_marked : board; gb_minenum : nat; gb_is_marked : bool;
  gb_basic_not : list pos; gb_basic_is : list pos; gb_enum_not : list pos; gb_enum_is : list pos }.

(** board.rs 41-54 [GameBoard::new] *)
Definition gboard_new (minenum : nat) : gboard := GBoard [] [] minenum false [] [] [] [].

(** board.rs 55-66 [set_game_board]: only the two boards are replaced. (Simplified: every cell above
    10 is covered again, also in rows longer than row 0, where Rust stops; shorter rows would panic.
    For rectangular boards there is no difference.) *)
Definition set_game_board (s : gboard) (b : board) : gboard :=
  GBoard b (map (map (fun v => if 10 <? v then 10 else v)) b) (gb_minenum s) (gb_is_marked s)
         (gb_basic_not s) (gb_basic_is s) (gb_enum_not s) (gb_enum_is s).

(** board.rs 82-88 and 91-97: the cells showing 11, row major *)
Definition cells11 (bd : board) : R (list pos) :=
  let* column := ncolsR bd in
  foldM (fun l '(i, j) => let* v := get bd i j in Ok (if v =? 11 then l ++ [(i, j)] else l)) (grid (nrows bd) column) [].

(** board.rs 67-101 [mark]. On a board without rows the loops at 82 and 91 do nothing; [cells11] panics
    (such a board makes refresh_matrixs panic first). *)
Definition gb_mark (s : gboard) : R gboard :=
  if gb_is_marked s then Ok s
  else
    let* (bl, _, _) := refresh_matrixs (gb_marked s) in
    let* (bl, n1, _, bd) := unwrap (solve_direct bl (gb_marked s)) in
    let* (bl, n2, _, bd) := unwrap (solve_minus bl bd) in
    let bnot := gb_basic_not s ++ n1 ++ n2 in
    let* bd := foldM (fun bd '(i, j) => set bd i j 12) bnot bd in
    let* l := cells11 bd in
    let bis := gb_basic_is s ++ l in
    let* (n3, _) := solve_enumerate bl in
    let* l := cells11 bd in
    let eis := gb_enum_is s ++ filter (fun p => negb (mem_pos p bis)) l in
    Ok (GBoard (gb_board s) bd (gb_minenum s) true bnot bis n3 eis).

(** board.rs 113-142: the four getters *)
Inductive gquery := Gbasic_not | Gbasic_is | Genum_not | Genum_is.
Definition gask (s : gboard) (q : gquery) : R (list pos * gboard) :=
  let* s := gb_mark s in
  Ok (match q with Gbasic_not => gb_basic_not s | Gbasic_is => gb_basic_is s | Genum_not => gb_enum_not s | Genum_is => gb_enum_is s end, s).

(** a session on one [GameBoard] *)
Inductive gcall := Gset (b : board) | Gask (q : gquery).
Fixpoint gsession (s : gboard) (cs : list gcall) : R (list (list pos)) :=
  match cs with
  | [] => Ok []
  | Gset b :: cs => gsession (set_game_board s b) cs
  | Gask q :: cs => let* (a, s) := gask s q in let* l := gsession s cs in Ok (a :: l)
  end.

(** * Solvable: model of [unsolvable_structure] (utils.rs 1202-1420), [isVictory] and [is_solvable]
    (algorithms.rs 623-682). *)
From Verif Require Import Base Metrics Refresh Matrix Solve.
Open Scope Z_scope.

(** ** [unsolvable_structure]

    Every condition of the function has the form [Board[p1] + ... + Board[pk] == v], where Board is the
    copy that holds -1 on mines and 0 elsewhere (1205-1212). An [atom] is such a condition, a
    structure is a conjunction of atoms ([&&]), the function is the disjunction ([||] and the
    early returns) of all structures, in the order of the source. *)
Definition atom : Type := list pos * Z.
(** [Board[x][y]]: 1205-1212 fold into the reading of a cell *)
Definition mine_cell (b : board) (x y : nat) : R Z :=
  let* v := get b x y in Ok (if v =? -1 then -1 else 0).
Definition atom_ok (b : board) (a : atom) : R bool :=
  let* s := foldM (fun s '(x, y) => let* v := mine_cell b x y in Ok (s + v)) (fst a) 0 in
  Ok (s =? snd a).
(** [a1 && a2 && ...] *)
Fixpoint struct_ok (b : board) (l : list atom) : R bool :=
  match l with
  | [] => Ok true
  | a :: l => let* t := atom_ok b a in if t : bool then struct_ok b l else Ok false
  end.

Definition M1 (x y : nat) : atom := ([(x, y)], -1).             (* Board[x][y] == -1 *)
Definition F0 (x y : nat) : atom := ([(x, y)], 0).              (* Board[x][y] == 0 *)
Definition S2 (x y x' y' : nat) : atom := ([(x, y); (x', y')], -1).  (* sum of two == -1 *)
Definition S3 (x y x' y' x'' y'' : nat) : atom := ([(x, y); (x', y'); (x'', y'')], -3).

(** 1213-1266: the left and right edges *)
Definition row_structs (row column i : nat) : list (list atom) :=
  (if (i <? row - 3)%nat then
     [[M1 i 0; M1 i 1; M1 (i+3) 0; M1 (i+3) 1; S2 (i+1) 0 (i+2) 0];
      [M1 i (column-1); M1 i (column-2); M1 (i+3) (column-1); M1 (i+3) (column-2);
       S2 (i+1) (column-1) (i+2) (column-1)]]
   else []) ++
  [[M1 i 2; M1 (i+1) 2; M1 (i+2) 2; S2 (i+1) 0 (i+1) 1];
   [M1 i (column-3); M1 (i+1) (column-3); M1 (i+2) (column-3); S2 (i+1) (column-1) (i+1) (column-2)];
   [M1 i 0; M1 i 1; M1 (i+1) 1; M1 (i+2) 1; M1 (i+2) 0; F0 (i+1) 0];
   [M1 i (column-1); M1 i (column-2); M1 (i+1) (column-2); M1 (i+2) (column-2); M1 (i+2) (column-1);
    F0 (i+1) (column-1)]] ++
  (if (i <? row - 3)%nat then
     [[M1 i 2; M1 (i+3) 2; S2 (i+1) 0 (i+1) 1; S2 (i+1) 1 (i+2) 1; S2 (i+2) 1 (i+2) 0];
      [M1 i (column-3); M1 (i+3) (column-3); S2 (i+1) (column-1) (i+1) (column-2);
       S2 (i+1) (column-2) (i+2) (column-2); S2 (i+2) (column-2) (i+2) (column-1)]]
   else []).
(** 1267-1320: the upper and lower edges *)
Definition col_structs (row column j : nat) : list (list atom) :=
  (if (j <? column - 3)%nat then
     [[M1 0 j; M1 1 j; M1 0 (j+3); M1 1 (j+3); S2 0 (j+1) 0 (j+2)];
      [M1 (row-1) j; M1 (row-2) j; M1 (row-1) (j+3); M1 (row-2) (j+3);
       S2 (row-1) (j+1) (row-1) (j+2)]]
   else []) ++
  [[M1 2 j; M1 2 (j+1); M1 2 (j+2); S2 0 (j+1) 1 (j+1)];
   [M1 (row-3) j; M1 (row-3) (j+1); M1 (row-3) (j+2); S2 (row-1) (j+1) (row-2) (j+1)];
   [M1 0 j; M1 1 j; M1 1 (j+1); M1 1 (j+2); M1 0 (j+2); F0 0 (j+1)];
   [M1 (row-1) j; M1 (row-2) j; M1 (row-2) (j+1); M1 (row-2) (j+2); M1 (row-1) (j+2);
    F0 (row-1) (j+1)]] ++
  (if (j <? column - 3)%nat then
     [[M1 2 j; M1 2 (j+3); S2 0 (j+1) 1 (j+1); S2 1 (j+1) 1 (j+2); S2 1 (j+2) 0 (j+2)];
      [M1 (row-3) j; M1 (row-3) (j+3); S2 (row-1) (j+1) (row-2) (j+1);
       S2 (row-2) (j+1) (row-2) (j+2); S2 (row-2) (j+2) (row-1) (j+2)]]
   else []).
(** 1321-1361: the corners *)
Definition corner_structs (row column : nat) : list (list atom) :=
  [[M1 0 2; M1 1 2; S2 0 0 0 1];
   [M1 2 0; M1 2 1; S2 0 0 1 0];
   [M1 0 (column-3); M1 1 (column-3); S2 0 (column-1) 0 (column-2)];
   [M1 2 (column-1); M1 2 (column-2); S2 0 (column-1) 1 (column-1)];
   [M1 (row-1) 2; M1 (row-2) 2; S2 (row-1) 0 (row-1) 1];
   [M1 (row-3) 0; M1 (row-3) 1; S2 (row-1) 0 (row-2) 0];
   [M1 (row-1) (column-3); M1 (row-2) (column-3); S2 (row-1) (column-1) (row-1) (column-2)];
   [M1 (row-3) (column-1); M1 (row-3) (column-2); S2 (row-1) (column-1) (row-2) (column-1)];
   [S3 0 1 1 1 1 0; F0 0 0];
   [S3 0 (column-2) 1 (column-2) 1 (column-1); F0 0 (column-1)];
   [S3 (row-1) (column-2) (row-2) (column-2) (row-2) (column-1); F0 (row-1) (column-1)];
   [S3 (row-1) 1 (row-2) 1 (row-2) 0; F0 (row-1) 0];
   [M1 2 2; S2 0 1 1 1; S2 1 0 1 1];
   [M1 (row-3) 2; S2 (row-1) 1 (row-2) 1; S2 (row-2) 0 (row-2) 1];
   [M1 (row-3) (column-3); S2 (row-1) (column-2) (row-2) (column-2);
    S2 (row-2) (column-1) (row-2) (column-2)];
   [M1 2 (column-3); S2 0 (column-2) 1 (column-2); S2 1 (column-1) 1 (column-2)]].
(** 1362-1417: the middle *)
Definition mid_structs (row column : nat) (p : pos) : list (list atom) :=
  let '(i, j) := p in
  (if (j <? column - 3)%nat then
     [[M1 i j; M1 (i+1) j; M1 (i+2) j; M1 i (j+3); M1 (i+1) (j+3); M1 (i+2) (j+3);
       S2 (i+1) (j+1) (i+1) (j+2)]]
   else []) ++
  (if (i <? row - 3)%nat then
     [[M1 i j; M1 i (j+1); M1 i (j+2); M1 (i+3) j; M1 (i+3) (j+1); M1 (i+3) (j+2);
       S2 (i+1) (j+1) (i+2) (j+1)]]
   else []) ++
  [[M1 i j; M1 (i+1) j; M1 (i+2) j; M1 i (j+1); M1 (i+2) (j+1); M1 i (j+2); M1 (i+1) (j+2);
    M1 (i+2) (j+2); F0 (i+1) (j+1)]] ++
  (if (j <? column - 3)%nat && (i <? row - 3)%nat then
     [[M1 i j; M1 (i+3) j; M1 i (j+3); M1 (i+3) (j+3); S2 (i+1) (j+1) (i+2) (j+1);
       S2 (i+1) (j+1) (i+1) (j+2); S2 (i+2) (j+1) (i+2) (j+2)]]
   else []).
Definition structs (row column : nat) : list (list atom) :=
  flat_map (row_structs row column) (seq 0 (row - 2)) ++
  flat_map (col_structs row column) (seq 0 (column - 2)) ++
  corner_structs row column ++
  flat_map (mid_structs row column) (grid (row - 2) (column - 2)).
(** utils.rs 1202-1420. The documentation asks for boards larger than 4x4. With fewer than three rows
    or columns the code panics unless an earlier structure is found; here it always panics. *)
Definition unsolvable_structure (b : board) : R bool :=
  let row := nrows b in
  let* column := ncolsR b in
  if (row <? 3)%nat || (column <? 3)%nat then Panic
  else findM (struct_ok b) (structs row column).

(** ** [is_solvable] *)

(** algorithms.rs 623-634 [isVictory]: early return at the first covered safe cell *)
Definition is_victory (g b : board) : R bool :=
  let row := nrows g in
  let* col := ncolsR g in
  let* hit := findM (fun '(i, j) =>
                let* w := get g i j in
                if w =? 10 then let* v := get b i j in Ok (negb (v =? -1)) else Ok false)
              (grid row col) in
  Ok (negb hit).

Definition nil_both (n i : list pos) : bool :=
  match n, i with [], [] => true | _, _ => false end.

(** algorithms.rs 650-681: the loop. The fuel row*column + 1 is proved sufficient. *)
Fixpoint solvable_loop (fuel : nat) (b g : board) : R bool :=
  match fuel with
  | O => OutOfFuel
  | S f =>
      let* (bl, _, _) := refresh_matrixs g in
      let* (bl, n, i, g) := unwrap (solve_direct bl g) in
      let* r :=
        (if nil_both n i then
           let* (bl, n, i, g) := unwrap (solve_minus bl g) in
           if nil_both n i then
             let* (n, i) := solve_enumerate bl in
             if nil_both n i then Ok None
             else
               let* g := foldM (fun g '(o, p) => set g o p 11) i g in
               Ok (Some (n, g))
           else Ok (Some (n, g))
         else Ok (Some (n, g))) in
      match r with
      | None => Ok false
      | Some (not_mine, g) =>
          let* g := refresh_board b g not_mine in
          let* win := is_victory g b in
          if win : bool then Ok true else solvable_loop f b g
      end
  end.

(** algorithms.rs 639-682 [is_solvable] *)
Definition is_solvable (b : board) (x0 y0 : nat) : R bool :=
  let* u := unsolvable_structure b in
  if u : bool then Ok false
  else
    let row := nrows b in
    let* column := ncolsR b in
    let g := mkboard row column 10 in
    let* g := refresh_board b g [(x0, y0)] in
    let* win := is_victory g b in
    if win : bool then Ok true else solvable_loop (S (row * column)) b g.

(** * Solve: model of the deduction engines of base/src/algorithms.rs and of the enumeration
    helpers of base/src/utils.rs. Representation of systems as in Matrix.v. *)
From Verif Require Import Base Matrix.
Open Scope Z_scope.

Definition zsum (l : list Z) : Z := fold_left Z.add l 0.
Definition nsum (l : list nat) : nat := fold_left Nat.add l 0%nat.

(** state of the engines inside one block: equations, unknowns, cells found, board *)
Notation solve_state := (list equation * list pos * list pos * board)%type.

(** algorithms.rs 163-169 / 181-186: column [k] of every equation is removed; for a mine its
    coefficient is subtracted from the right hand side. *)
Definition take_col (mine : bool) (k : nat) (es : list equation) : R (list equation) :=
  mapM (fun '(a, b) => let* c := vget a k in let* a := vremove a k in
                       Ok (a, if mine then b - c else b)) es.

(** algorithms.rs 159-171 (mine) and 178-188 (not mine): every unknown of equation [i] is decided. *)
Definition sweep (mine : bool) (i : nat) (st : solve_state) : R solve_state :=
  let '(es, x, out, bd) := st in
  foldM (fun '(es, x, out, bd) k =>
           let* e := vget es i in
           let* c := vget (fst e) k in
           if 1 <=? c then
             let* p := vget x k in
             let* bd := set bd (fst p) (snd p) (if mine then 11 else 12) in
             let* x := vremove x k in
             let* es := take_col mine k es in
             Ok (es, x, out ++ [p], bd)
           else Ok (es, x, out, bd))
        (rev (seq 0 (length x))) (es, x, out, bd).

(** algorithms.rs 157-175 (mine = true: sum of the row = right hand side) and 176-192 (mine = false:
    right hand side 0): equations are visited from the last to the first and removed when decided. *)
Definition direct_phase (mine : bool) (st : solve_state) : R solve_state :=
  let '(es, x, out, bd) := st in
  foldM (fun '(es, x, out, bd) i =>
           let* e := vget es i in
           if (if mine then zsum (fst e) =? snd e else snd e =? 0) then
             let* st := sweep mine i (es, x, out, bd) in
             let '(es, x, out, bd) := st in
             let* es := vremove es i in
             Ok (es, x, out, bd)
           else Ok (es, x, out, bd))
        (rev (seq 0 (length es))) (es, x, out, bd).

(** algorithms.rs 154-198: one block. *)
Definition direct_block (B : block) (notm ism : list pos) (bd : board)
  : R (list equation * list pos * list pos * list pos * board) :=
  let* st := direct_phase true (eqs B, vars B, ism, bd) in
  let '(es, x, ism, bd) := st in
  let* st := direct_phase false (es, x, notm, bd) in
  let '(es, x, notm, bd) := st in
  Ok (es, x, notm, ism, bd).

(** algorithms.rs 153-198: the blocks from the last to the first; blocks without equations are
    removed (in place in Rust; here the survivors are rebuilt). *)
Definition direct_blocks (bl : list block) (bd : board) : R (list block * list pos * list pos * board) :=
  foldM (fun '(keep, notm, ism, bd) B =>
           let* st := direct_block B notm ism bd in
           let '(es, x, notm, ism, bd) := st in
           Ok (match es with [] => keep | _ => Blk es x :: keep end, notm, ism, bd))
        (rev bl) ([], [], [], bd).

(** algorithms.rs 143-209 [solve_direct]: new blocks, safe cells, mines, marked board. The arguments
    are updated in place, also when [Err(6)] is returned: [solve_direct_st] gives the final state and
    whether the call returned Ok. *)
Definition solve_direct_st (bl : list block) (bd : board) : R (bool * (list block * list pos * list pos * board)) :=
  let* (bl, notm, ism, bd) := direct_blocks bl bd in
  if existsb (fun B => existsb (fun e => snd e <? 0) (eqs B)) bl then Ok (false, (bl, notm, ism, bd))
  else
    let* bl := chunk_matrixes bl in
    Ok (true, (bl, notm, ism, bd)).
(** the call seen by a caller that uses [?] or [unwrap] on the result *)
Definition solve_direct (bl : list block) (bd : board) : R (list block * list pos * list pos * board) :=
  let* (ok, st) := solve_direct_st bl bd in
  if (ok : bool) then Ok st else Err 6.

(** algorithms.rs 72-99: the subtraction rule for equations i and j: (mines, safe cells), as column
    indices. *)
Definition pair_rule (es : list equation) (ncol i j : nat) : R (list nat * list nat) :=
  let* ei := vget es i in
  let* ej := vget es j in
  let* st := foldM (fun '(p1, n1, adj) k =>
               let* ci := vget (fst ei) k in
               let* cj := vget (fst ej) k in
               if (1 <=? ci) && (1 <=? cj) then Ok (p1, n1, true)
               else if ci - cj =? 1 then Ok (p1 ++ [k], n1, adj)
               else if ci - cj =? -1 then Ok (p1, n1 ++ [k], adj)
               else Ok (p1, n1, adj))
             (seq 0 ncol) ([], [], false) in
  let '(p1, n1, adj) := st in
  let d := snd ei - snd ej in
  if (adj : bool) then
    if Z.of_nat (length p1) =? d then Ok (p1, n1)
    else if Z.of_nat (length n1) =? - d then Ok (n1, p1)
    else Ok ([], [])
  else Ok ([], []).

(** [for i in 1..n { for j in 0..i] *)
Definition lower_pairs (n : nat) : list (nat * nat) :=
  flat_map (fun i => map (fun j => (i, j)) (seq 0 i)) (rng 1 n).

(** [sort(); dedup()] of a list of indices below [n]: the increasing list of its members. *)
Definition sort_dedup (n : nat) (l : list nat) : list nat :=
  filter (fun k => existsb (Nat.eqb k) l) (seq 0 n).

(** algorithms.rs 60-126: one block. *)
Definition minus_block (B : block) (notm ism : list pos) (bd : board)
  : R (block * list pos * list pos * board) :=
  let ncol := length (vars B) in
  let nrow := length (eqs B) in
  if (nrow <=? 1)%nat then Ok (B, notm, ism, bd)
  else
    let* rel := foldM (fun '(is_rel, not_rel) '(i, j) =>
                         let* r := pair_rule (eqs B) ncol i j in
                         Ok (is_rel ++ fst r, not_rel ++ snd r))
                      (lower_pairs nrow) ([], []) in
    let is_rel := sort_dedup ncol (fst rel) in
    let not_rel := sort_dedup ncol (snd rel) in
    let* st := foldM (fun '(notm, bd) i =>
                        let* p := vget (vars B) i in
                        let* bd := set bd (fst p) (snd p) 12 in
                        Ok (notm ++ [p], bd)) not_rel (notm, bd) in
    let '(notm, bd) := st in
    let* st := foldM (fun '(es, ism, bd) i =>
                        let* p := vget (vars B) i in
                        let* bd := set bd (fst p) (snd p) 11 in
                        let* es := mapM (fun '(a, b) => let* c := vget a i in Ok (a, b - c)) es in
                        Ok (es, ism ++ [p], bd)) is_rel (eqs B, ism, bd) in
    let '(es, ism, bd) := st in
    let* st := foldM (fun '(es, x) i =>
                        let* x := vremove x i in
                        let* es := mapM (fun '(a, b) => let* a := vremove a i in Ok (a, b)) es in
                        Ok (es, x))
                     (rev (sort_dedup ncol (not_rel ++ is_rel))) (es, vars B) in
    let '(es, x) := st in
    Ok (Blk es x, notm, ism, bd).

(** algorithms.rs 55-131: the blocks from the last to the first; blocks that lost all their unknowns
    are removed (a block with at most one equation is skipped and always kept). *)
Definition minus_blocks (bl : list block) (bd : board) : R (list block * list pos * list pos * board) :=
  foldM (fun '(keep, notm, ism, bd) B =>
           let* st := minus_block B notm ism bd in
           let '(B', notm, ism, bd) := st in
           let drop := (2 <=? length (eqs B))%nat && match vars B' with [] => true | _ => false end in
           Ok (if drop then keep else B' :: keep, notm, ism, bd))
        (rev bl) ([], [], [], bd).

(** algorithms.rs 49-136 [solve_minus]. *)
Definition solve_minus_st (bl : list block) (bd : board) : R (bool * (list block * list pos * list pos * board)) :=
  let* (bl, notm, ism, bd) := minus_blocks bl bd in
  let* (ok, (bl, not2, is2, bd)) := solve_direct_st bl bd in
  if (ok : bool) then
    let* bl := chunk_matrixes bl in
    Ok (true, (bl, notm ++ not2, ism ++ is2, bd))
  else Ok (false, (bl, notm ++ not2, ism ++ is2, bd)).
Definition solve_minus (bl : list block) (bd : board) : R (list block * list pos * list pos * board) :=
  let* (ok, st) := solve_minus_st bl bd in
  if (ok : bool) then Ok st else Err 6.

(** utils.rs 763-772: are columns i and j equal in every row? *)
Definition differ (A : list (list Z)) (i j : nat) : R bool :=
  findM (fun r => let* c := vget r i in let* d := vget r j in Ok (negb (c =? d))) A.

(** utils.rs 755-793 [combine]: squeezed coefficients, squeezed unknowns, groups of columns. *)
Definition combine_cells (A : list (list Z)) (x : list pos) : R (list (list Z) * list pos * list (list nat)) :=
  let n := length x in
  let* st := foldM (fun '(pairs, del) i =>
               let* st := foldM (fun '(grp, del) j =>
                            let* d := differ A i j in
                            Ok (if d then grp else grp ++ [j], if d then del else del ++ [j]))
                          (rng (i + 1) n) ([i], del) in
               Ok (pairs ++ [fst st], snd st))
             (seq 0 n) ([], []) in
  let '(pairs, del) := st in
  let* st := foldM (fun '(A, x, pairs) i =>
               let* A := mapM (fun r => vremove r i) A in
               let* x := vremove x i in
               let* pairs := vremove pairs i in
               Ok (A, x, pairs))
             (rev (sort_dedup n del)) (A, x, pairs) in
  let '(A, x, pairs) := st in
  let* A := mapM (fun r => mapM (fun i => let* c := vget r i in
                                          let* grp := vget pairs i in
                                          Ok (c * Z.of_nat (length grp)))
                                (seq 0 (length pairs))) A in
  Ok (A, x, pairs).

(** utils.rs 735-753 [C_query]: the table of binomials up to 8. *)
Definition C_table : list (list nat) :=
  [[1;0;0;0;0;0;0;0;0]; [1;1;0;0;0;0;0;0;0]; [1;2;1;0;0;0;0;0;0]; [1;3;3;1;0;0;0;0;0];
   [1;4;6;4;1;0;0;0;0]; [1;5;10;10;5;1;0;0;0]; [1;6;15;20;15;6;1;0;0]; [1;7;21;35;35;21;7;1;0];
   [1;8;28;56;70;56;28;8;1]]%nat.
Definition C_query (n k : nat) : R nat := get C_table n k.

(** utils.rs 940-957 [cal_cell_and_equation_map]: column -> rows, row -> columns. *)
Definition cell_equation_map (A : list (list Z)) : R (list (list nat) * list (list nat)) :=
  let* ncol := match A with [] => Panic | r :: _ => Ok (length r) end in
  foldM (fun '(c2e, e2c) '(i, j) =>
           let* c := get A i j in
           if 1 <=? c then
             let* l := vget e2c i in
             let* e2c := vset e2c i (l ++ [j]) in
             let* l := vget c2e j in
             let* c2e := vset c2e j (l ++ [i]) in
             Ok (c2e, e2c)
           else Ok (c2e, e2c))
        (list_prod (seq 0 (length A)) (seq 0 ncol))
        (repeat [] ncol, repeat [] (length A)).

(** one line of the tables: number of mines, number of solutions, per (merged) column the number of
    solutions where one given cell of the group is a mine. Rust keeps the three in parallel vectors. *)
Notation trow := (nat * nat * list nat)%type.

(** utils.rs 976-987: a complete assignment is recorded. *)
Definition record_solution (groups : list (list nat)) (amount : nat) (mine_vec : list nat) (table : list trow)
  : R (list trow) :=
  let total := nsum mine_vec in
  if (length table <=? total)%nat then Err 5
  else
    let* (k, c, cells) := vget table total in
    let* cells := foldM (fun cells idn =>
                    let* n := vget mine_vec idn in
                    let* old := vget cells idn in
                    let* grp := vget groups idn in
                    let* q := (match length grp with O => Panic | S l => Ok (amount * n / S l)%nat end) in
                    vset cells idn (old + q)%nat)
                  (seq 0 (length mine_vec)) cells in
    vset table total (k, (c + amount)%nat, cells).

(** utils.rs 989-1011: bounds for column [idx]. [upper_limit_i as usize] of a negative number wraps
    and makes the following [upper_limit + 1] overflow or the lookup in [C_query] fail: [Panic]. *)
Definition limits (A : list (list Z)) (rem : list Z) (groups : list (list nat)) (c2e e2c : list (list nat)) (idx : nat)
  : R (nat * nat) :=
  let* grp := vget groups idx in
  let len := length grp in
  let* rows := vget c2e idx in
  foldM (fun '(lo, up) ci =>
           let* c := get A ci idx in
           if c =? 0 then Ok (lo, up)
           else
             let* r := vget rem ci in
             let up_i := Z.min r (Z.of_nat len) in
             let* cols := vget e2c ci in
             let* lo_i := foldM (fun lo j => if (idx <? j)%nat then
                                               let* gj := vget groups j in Ok (lo - Z.of_nat (length gj))
                                             else Ok lo) cols r in
             let* up := (if up_i <? Z.of_nat up then
                           if up_i <? 0 then Panic else Ok (Z.to_nat up_i)
                         else Ok up) in
             let lo := if Z.of_nat lo <? lo_i then Z.to_nat lo_i else lo in
             Ok (lo, up))
        rows (0%nat, len).

(** utils.rs 959-1043 [cal_table_minenum_recursion_step]. [matrix_b_remain] and [mine_vec] are
    restored by Rust after each value of [u]; here each call gets its own copy. [todo] is the number
    of columns left (idx = cells_num - todo). *)
Fixpoint table_step (todo : nat) (A : list (list Z)) (groups : list (list nat)) (c2e e2c : list (list nat))
    (idx amount : nat) (rem : list Z) (mine_vec : list nat) (table : list trow) : R (list trow) :=
  match todo with
  | O => record_solution groups amount mine_vec table
  | S todo =>
      let* (lo, up) := limits A rem groups c2e e2c idx in
      let* rows := vget c2e idx in
      let* grp := vget groups idx in
      foldM (fun table u =>
               let* mine_vec := vset mine_vec idx u in
               let* rem := foldM (fun rem tt => let* r := vget rem tt in vset rem tt (r - Z.of_nat u)) rows rem in
               let* c := C_query (length grp) u in
               table_step todo A groups c2e e2c (S idx) (amount * c)%nat rem mine_vec table)
            (rng lo (S up)) table
  end.

(** utils.rs 1088-1104: lines without solutions are dropped at both ends. *)
Fixpoint trim_front (t : list trow) : list trow :=
  match t with
  | (_, O, _) :: t' => trim_front t'
  | _ => t
  end.
Definition trim (t : list trow) : list trow := rev (trim_front (rev (trim_front t))).

(** lib.rs 77 *)
Definition ENUM_LIMIT : nat := 55.

(** utils.rs 1045-1113 [cal_table_minenum_recursion]. *)
Definition cal_table_minenum_recursion (A : list (list Z)) (x : list pos) (b : list Z) (groups : list (list nat))
  : R (list trow) :=
  let n := length x in
  if (ENUM_LIMIT <? n)%nat then Err n
  else
    let total := nsum (map (@length nat) groups) in
    let* (c2e, e2c) := cell_equation_map A in
    let table := map (fun k => (k, 0%nat, repeat 0%nat n)) (seq 0 (S total)) in
    let* ncol := (match A with [] => Panic | r :: _ => Ok (length r) end) in
    let* table := table_step ncol A groups c2e e2c 0 1 b (repeat 0%nat n) table in
    match trim_front table with
    | [] => Err 1
    | _ => Ok (trim table)
    end.

(** [.unwrap()] on a [Result] *)
Definition unwrap {A} (r : R A) : R A := match r with Err _ => Panic | _ => r end.

(** algorithms.rs 568-618 [solve_enumerate]: (safe cells, mines). *)
Definition enumerate_block (B : block) (notm ism : list pos) : R (list pos * list pos) :=
  let* (A, x, groups) := combine_cells (map fst (eqs B)) (vars B) in
  let* table := unwrap (cal_table_minenum_recursion A x (map snd (eqs B)) groups) in
  (
      let* ncell := (match table with [] => Panic | (_, _, cells) :: _ => Ok (length cells) end) in
      let total := nsum (map (fun '(_, c, _) => c) table) in
      foldM (fun '(notm, ism) jj =>
               let* ns := mapM (fun '(_, _, cells) => vget cells jj) table in
               let s := nsum ns in
               let* grp := vget groups jj in
               if (s =? 0)%nat then
                 let* cs := mapM (fun kk => vget (vars B) kk) grp in Ok (notm ++ cs, ism)
               else if (s =? total * length grp)%nat then
                 let* cs := mapM (fun kk => vget (vars B) kk) grp in Ok (notm, ism ++ cs)
               else Ok (notm, ism))
            (seq 0 ncell) (notm, ism)).
Definition solve_enumerate (bl : list block) : R (list pos * list pos) :=
  if existsb (fun B => (ENUM_LIMIT <? length (vars B))%nat) bl then Ok ([], [])
  else foldM (fun '(notm, ism) B => enumerate_block B notm ism) bl ([], []).

(** algorithms.rs 1276-1295 [mark_board]: the marked board, or the error code (the board left behind
    by an error is not part of the model). The result of solve_minus is ignored. *)
Definition bad_block (B : block) : bool :=
  existsb (fun e => (zsum (fst e) <? snd e) || (snd e <? 0)) (eqs B).
Definition mark_board (g : board) : R board :=
  let* (bl, _, _) := refresh_matrixs g in
  let* (bl, _, _, bd) := solve_direct bl g in
  if existsb bad_block bl then Err 7
  else
    let* (_, (bl, _, _, bd)) := solve_minus_st bl bd in
    if existsb bad_block bl then Err 8 else Ok bd.

(** algorithms.rs 1299-1317 [get_all_not_and_is_mine_on_board]. *)
Definition get_all_not_and_is_mine_on_board (bl : list block) (bd : board) : R (list pos * list pos * board) :=
  let* (bl, n1, i1, bd) := unwrap (solve_direct bl bd) in
  let* (bl, n2, i2, bd) := unwrap (solve_minus bl bd) in
  let* (n3, i3) := solve_enumerate bl in
  Ok (n1 ++ n2 ++ n3, i1 ++ i2 ++ i3, bd).

(** algorithms.rs 1393-1415 [is_able_to_solve]. The results (Ok or Err) of solve_direct and
    solve_minus are ignored. *)
Definition is_able_to_solve (g : board) (xy : pos) : R bool :=
  let g := map (map (fun v => if 10 <? v then 10 else v)) g in
  let* (bl, _, _) := refresh_matrixs g in
  let* (_, (bl, _, _, bd)) := solve_direct_st bl g in
  let* v := get bd (fst xy) (snd xy) in
  if (v =? 11) || (v =? 12) then Ok true
  else
    let* (_, (bl, _, _, bd)) := solve_minus_st bl bd in
    let* v := get bd (fst xy) (snd xy) in
    if (v =? 11) || (v =? 12) then Ok true
    else
      let* (n, i) := solve_enumerate bl in
      Ok (mem_pos xy i || mem_pos xy n).

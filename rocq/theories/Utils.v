(** * Utils: remaining utilities of base/src/utils.rs. *)
From Verif Require Import Base Metrics LayMine.
Open Scope Z_scope.

(** utils.rs 1516-1538 [legalize_board] *)
Definition legalize_cell (row column : nat) (b : board) (p : pos) : R board :=
  let '(x, y) := p in
  let* v := get b x y in
  if (v <=? -1) || (13 <=? v) || (v =? 9) then set b x y 10
  else if (1 <=? v) && (v <=? 8) then
    let* limit := foldM (fun n '(i, j) => let* w := get b i j in Ok (if (w =? 10) || (w =? 11) then n + 1 else n))
                        (zone row column x y) 0 in
    let* v := get b x y in
    set b x y (Z.min v limit)
  else Ok b.
Definition legalize_board (b : board) : R board :=
  let row := nrows b in
  let* column := ncolsR b in
  foldM (legalize_cell row column) (grid row column) b.

(** utils.rs 719-733 [C]. The floating point pair (a, b) standing for a * 10^b is replaced by the
    exact value: multiplication and division are exact on natural numbers here (rounding is not
    modelled). [fuel] bounds the recursion C(n, n-k), at most one level. *)
Fixpoint C_exact (fuel n k : nat) : R nat :=
  if (n <? k + k)%nat then
    match fuel with
    | O => OutOfFuel
    | S f => let* d := usub n k in C_exact f n d
    end
  else foldM (fun c i => let* m := usub n i in Ok (c * m / (i + 1))%nat) (seq 0 k) 1%nat.

(** utils.rs 1746-1768 [surround_cell_num] *)
Definition surround_cell_num (g : board) (p : pos) : R Z :=
  let row := nrows g in
  let* column := ncolsR g in
  let* v := get g (fst p) (snd p) in
  if (8 <? v) || (v <? 1) then Ok (-1)
  else
    let* (num, fl) := foldM (fun '(num, fl) '(m, n) =>
                        let* w := get g m n in
                        Ok (if w =? 10 then (num + 1, fl) else if w =? 11 then (num, fl + 1) else (num, fl)))
                      (zone row column (fst p) (snd p)) (0, 0) in
    Ok (if v =? fl then num else -1).

(** utils.rs 1717-1742 [is_good_chording]. The last test is [pos.1 < column + 1] as in the source. *)
Definition is_good_chording (g : board) (p : pos) : R bool :=
  let row := nrows g in
  let* column := ncolsR g in
  let* mid := surround_cell_num g p in
  let* t1 := (if (0 <? fst p)%nat then let* n := surround_cell_num g (fst p - 1, snd p)%nat in Ok (mid <? n) else Ok false) in
  if t1 : bool then Ok false else
  let* t2 := (if (0 <? snd p)%nat then let* n := surround_cell_num g (fst p, snd p - 1)%nat in Ok (mid <? n) else Ok false) in
  if t2 : bool then Ok false else
  let* t3 := (if (fst p + 1 <? row)%nat then let* n := surround_cell_num g (fst p + 1, snd p)%nat in Ok (mid <? n) else Ok false) in
  if t3 : bool then Ok false else
  let* t4 := (if (snd p <? column + 1)%nat then let* n := surround_cell_num g (fst p, snd p + 1)%nat in Ok (mid <? n) else Ok false) in
  if t4 : bool then Ok false else Ok (0 <? mid).

(** utils.rs 1423-1511 [cal_bbbv_exp]: the 3BV count specialised to 16 x 30 boards. [ops] is
    [op_list]; [op_list[op_id as usize]] beyond 200 panics. [bv] is usize: the subtraction panics
    below zero. *)
Definition exp_prev (b0 : board) (x y' : nat) (st : board * list bool * nat * Z * bool)
  : R (board * list bool * nat * Z * bool) :=
  let '(b, ops, bv, min_id, flag) := st in
  let* w := get b x y' in
  if 999999 <? w then
    let* b := set b x y' 1 in
    let* bv := usub bv 1 in
    Ok (b, ops, bv, min_id, flag)
  else
    let* w0 := get b0 x y' in
    if w0 =? 0 then
      let* w := get b x y' in
      if w <? min_id then
        let* ops := (if flag then vset ops (Z.to_nat min_id) false else Ok ops) in
        let* w := get b x y' in
        Ok (b, ops, bv, w, true)
      else Ok (b, ops, bv, min_id, flag)
    else Ok (b, ops, bv, min_id, flag).
Definition exp_first (b0 : board) (st : board * list bool * nat * nat) (p : pos) : R (board * list bool * nat * nat) :=
  let '(b, ops, bv, op_id) := st in
  let '(x, y) := p in
  let* v := get b x y in
  if 0 <? v then
    let* b := set b x y 1000000 in
    Ok (b, ops, S bv, op_id)
  else if v =? 0 then
    let* st := (if (1 <=? x)%nat then
                  foldM (fun st j => exp_prev b0 (x - 1) j st) (rng (Nat.max 1 y - 1) (Nat.min 30 (y + 2))) (b, ops, bv, 1000, false)
                else Ok (b, ops, bv, 1000, false)) in
    let* st := (if (1 <=? y)%nat then exp_prev b0 x (y - 1) st else Ok st) in
    let '(b, ops, bv, _, flag) := st in
    if (flag : bool) then Ok (b, ops, bv, op_id)
    else
      let* ops := vset ops (S op_id) true in
      Ok (b, ops, bv, S op_id)
  else Ok (b, ops, bv, op_id).
Definition exp_next (b0 : board) (x y x' y' : nat) (st : board * list bool * nat) : R (board * list bool * nat) :=
  let '(b, ops, bv) := st in
  let* w := get b x' y' in
  if 999999 <? w then
    let* b := set b x' y' 1 in
    let* bv := usub bv 1 in
    Ok (b, ops, bv)
  else
    let* w0 := get b0 x' y' in
    if w0 =? 0 then
      let* w := get b x' y' in
      let* v := get b x y in
      if w <? v then
        let* ops := vset ops (Z.to_nat v) false in
        let* b := set b x y w in
        Ok (b, ops, bv)
      else Ok (b, ops, bv)
    else Ok (b, ops, bv).
Definition exp_second (b0 : board) (st : board * list bool * nat) (p : pos) : R (board * list bool * nat) :=
  let '(x, y) := p in
  let* v := get (fst (fst st)) x y in
  if v =? 0 then
    let* st := (if (x <=? 14)%nat then
                  foldM (fun st j => exp_next b0 x y (x + 1) j st) (rng (Nat.max 1 y - 1) (Nat.min 30 (y + 2))) st
                else Ok st) in
    if (y <=? 28)%nat then exp_next b0 x y x (y + 1) st else Ok st
  else Ok st.
Definition cal_bbbv_exp (b0 : board) : R nat :=
  let* (b, ops, bv, op_id) := foldM (exp_first b0) (grid 16 30) (b0, repeat false 200, 0%nat, 0%nat) in
  let* (_, ops, bv) := foldM (exp_second b0) (rev (grid 16 30)) (b, ops, bv) in
  foldM (fun bv i => let* f := vget ops i in Ok (if f : bool then S bv else bv)) (seq 0 (op_id + 1)) bv.

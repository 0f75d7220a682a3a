(** * Refresh: model of [refresh_board], base/src/utils.rs 600-640. *)
From Verif Require Import Base Metrics.
Open Scope Z_scope.

(** utils.rs 612-629: the [while let Some(top) = clicked_poses.pop()] loop. The Rust stack is a
    Vec popped from its end; here the head of the list is the top, so a push is a cons. *)
Fixpoint refresh_loop (fuel : nat) (row column : nat) (b : board)
    (g : board) (stack : list pos) (loss : bool) : R (board * bool) :=
  match stack with
  | [] => Ok (g, loss)
  | (i, j) :: stack' =>
      match fuel with
      | O => OutOfFuel
      | S f =>
          let* v := get b i j in
          if 0 <? v then
            let* g := set g i j v in
            refresh_loop f row column b g stack' loss
          else if v =? 0 then
            let* g := set g i j 0 in
            let* st := foldM (fun st '(m, n) =>
                          if negb (i =? m)%nat || negb (j =? n)%nat then
                            let* w := get g m n in
                            Ok (if (w =? 10) || (w =? 12) then (m, n) :: st else st)
                          else Ok st)
                        (zone row column i j) stack' in
            refresh_loop f row column b g st loss
          else
            let* g := set g i j 15 in
            refresh_loop f row column b g stack' true
      end
  end.

(** utils.rs 600-640 [refresh_board]. The fuel 9*row*column + len + 1 is proved sufficient. *)
Definition refresh_board (b : board) (g : board) (clicks : list pos) : R board :=
  let row := get_row b in
  let* column := get_column b in
  let* r := refresh_loop (9 * (row * column) + length clicks + 1) row column b g (rev clicks) false in
  let '(g, loss) := r in
  if loss : bool then
    foldM (fun g '(i, j) =>
             let* w := get g i j in
             if w =? 11 then
               let* v := get b i j in
               if negb (v =? -1) then set g i j 14 else Ok g
             else Ok g)
          (grid row column) g
  else Ok g.

(** * Adjust: model of [laymine_solvable_adjust], [adjust_step] and [adjust_the_area_on_board]
    (algorithms.rs 797-1067). The n-th shuffle drawn from the random number generator is [shuf n]; the
    number of draws so far is part of the state. *)
From Verif Require Import Base LayMine Matrix Solve Blocks.
Open Scope Z_scope.

(** algorithms.rs 1040-1067 *)
Definition adjust_the_area_on_board (shuf : list Z -> list Z) (b : board) (area : list (list pos)) (minenum : nat) : R board :=
  let cells := concat area in
  let* n0 := usub (length cells) minenum in
  let d := shuf (repeat 0 n0 ++ repeat (-1) minenum) in
  let* (b, _) := foldM (fun '(b, id) '(x, y) => let* v := vget d id in let* b := set b x y v in Ok (b, S id)) cells (b, 0%nat) in
  Ok b.

(** algorithms.rs 944-980: the number of mines planned in round [i] for a front of [xs] cells when [me]
    are expected *)
Definition planned_mines (xs me i : nat) : R nat :=
  if (me =? 0)%nat || (xs =? 0)%nat then Ok 0%nat
  else if (me =? xs)%nat then Ok me
  else let* l := usub xs 1 in
  if (i =? l)%nat then Ok 0%nat
  else if (i =? xs)%nat then Ok xs
  else if (me * 2 <? xs)%nat then
    let* z := usub (me * 2) 1 in
    if (i <? z)%nat then
      if (i mod 2 =? 1)%nat then Ok (me + (i + 1) / 2)%nat else usub me (i / 2)
    else Ok (i + 1)%nat
  else
    let* d := usub xs me in
    let* z := usub (d * 2) 1 in
    if (i <? z)%nat then
      if (i mod 2 =? 1)%nat then Ok (me + (i + 1) / 2)%nat else usub me (i / 2)
    else let* t := usub xs i in usub t 1.

(** algorithms.rs 930-932: [front_xs_0] *)
Definition unlaid (b : board) (x : list pos) : R (list pos) :=
  foldM (fun l '(i, j) => let* v := get b i j in Ok (if v =? -10 then l ++ [(i, j)] else l)) x [].
(** algorithms.rs 988-1003: the right hand sides of the first group, from the mines laid *)
Definition count_mines (b bg : board) (B : block) : R block :=
  let* es := mapM (fun '(a, _) =>
               let* a0 := vget (eqs B) 0 in
               let* s := foldM (fun s aa =>
                           let* c := vget a aa in
                           if c =? 1 then
                             let* p := vget (vars B) aa in
                             let* v := get b (fst p) (snd p) in
                             if v =? -1 then
                               let* w := get bg (fst p) (snd p) in
                               Ok (if negb (w =? 11) then s + 1 else s)
                             else Ok s
                           else Ok s)
                         (seq 0 (length (fst a0))) 0 in
               Ok (a, s)) (eqs B) in
  Ok (Blk es (vars B)).
Definition fill (g : board) (l : list pos) (v : Z) : R board := foldM (fun g '(x, y) => set g x y v) l g.

(** state of the loops of [adjust_step]: b, bg, r, rn, draws; or the result of a [return] *)
Inductive step_out := Return (b : board) (flag : bool) (k : nat) | Go (b bg : board) (r rn k : nat).
(** the loop with [return] in its body *)
Fixpoint loop_until {A} (f : A -> board * board * nat * nat * nat -> R step_out) (l : list A) (b bg : board) (r rn k : nat) : R step_out :=
  match l with
  | [] => Ok (Go b bg r rn k)
  | x :: l =>
      let* o := f x (b, bg, r, rn, k) in
      match o with
      | Return _ _ _ => Ok o
      | Go b bg r rn k => loop_until f l b bg r rn k
      end
  end.

(** algorithms.rs 895-1037. The fuel bounds the depth of the recursion: every call opens a covered cell
    of the board it is given. The product and quotient 940 in f64 are replaced by the exact quotient, which they equal ([C39_planned_exact])
    (0 when there is nothing left to lay: 0/0 is NaN, cast to 0). *)
Fixpoint adjust_step (fuel : nat) (shuf : nat -> list Z -> list Z) (board0 board_of_game : board) (plan : list pos)
    (r0 rn0 k : nat) : R (board * bool * nat) :=
  match fuel with
  | O => OutOfFuel
  | S f =>
    let* bg := fill board_of_game plan 1 in
    let* ses := refresh_matrixses bg in
    match ses with
    | [] => Ok ([], false, k)
    | grp :: _ =>
      let* front := mapM (fun B => unlaid board0 (vars B)) grp in
      let* f0 := vget front 0 in
      match f0 with
      | [] => if (0 <? rn0)%nat then Ok ([], false, k) else Ok (board0, true, k)
      | _ =>
        let xs := length (concat front) in
        let me := (xs * r0 / (rn0 + r0))%nat in
        let* o := loop_until (fun i '(b, bg, r, rn, k) =>
            let* minenum := planned_mines xs me i in
            let* free := usub xs minenum in
            if (r <? minenum)%nat || (rn <? free)%nat then Ok (Go b bg r rn k)
            else
              loop_until (fun (_ : nat) '(b, bg, r, rn, k) =>
                let* b := adjust_the_area_on_board (shuf k) b front minenum in
                let k := S k in
                let* bl := mapM (count_mines b bg) grp in
                let* (n, i, bg) := get_all_not_and_is_mine_on_board bl bg in
                let* bg := fill bg i 10 in
                match n with
                | [] => Ok (Go b bg r rn k)
                | _ =>
                  let* bg := fill bg n 1 in
                  let* bg := fill bg i 11 in
                  if (rn <=? length n)%nat then Ok (Return b true k)
                  else
                    let* r := usub r minenum in
                    let* rn := usub rn free in
                    let* (b', flag, k) := adjust_step f shuf b bg n r rn k in
                    if flag : bool then
                      match b' with
                      | [] => Ok (Go b bg r rn k)
                      | _ => Ok (Return b' true k)
                      end
                    else Ok (Go board0 board_of_game r0 rn0 k)
                end) [0; 1; 2]%nat b bg r rn k)
          (seq 0 (xs + 1)) board0 bg r0 rn0 k in
        match o with
        | Return b flag k => Ok (b, flag, k)
        | Go _ _ _ _ k => Ok ([], false, k)
        end
      end
    end
  end.

(** algorithms.rs 797-885. *)
Definition laymine_solvable_adjust (shuf : nat -> list Z -> list Z) (row column minenum x0 y0 : nat) : R (board * bool) :=
  let* aop := area_op row column x0 y0 in
  let* room := usub (row * column) aop in
  if (room <? minenum)%nat then
    let* t := laymine (shuf 0%nat) row column minenum x0 y0 in
    let* safe := usub (row * column) minenum in
    Ok (t, (safe =? 1)%nat)
  else if (row * column =? aop + minenum)%nat then
    let* t := laymine_op (shuf 0%nat) row column minenum x0 y0 in Ok (t, true)
  else
    let* board_of_game := set (mkboard row column 10) x0 y0 0 in
    let* rn := usub room minenum in
    let* b := fill (mkboard row column (-10)) (zone row column x0 y0) 0 in
    let plan := filter (fun p => negb (posb p (x0, y0))) (zone row column x0 y0) in
    let* (b, flag, k) := adjust_step (S (row * column)) shuf b board_of_game plan minenum rn 0 in
    if negb flag || match b with [] => true | _ => false end then
      let* t := laymine_op (shuf k) row column minenum x0 y0 in Ok (t, false)
    else
      let* b := foldM (fun b '(i, j) => let* v := get b i j in if v =? -10 then set b i j (-1) else Ok b) (grid row column) b in
      let* b := foldM (fun b '(i, j) => let* v := get b i j in if v =? -1 then bump row column b i j else Ok b) (grid row column) b in
      Ok (b, flag).

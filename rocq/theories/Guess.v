(** * Guess: model of [find_a_border_cell] (utils.rs 1677-1712) and [is_guess_while_needless]
    (algorithms.rs 1327-1387). *)
From Verif Require Import Base Matrix Solve Blocks.
Open Scope Z_scope.

(** [n.is_empty()] *)
Definition is_nil {A} (l : list A) : bool := match l with [] => true | _ => false end.

(** the inner double loops (1684-1690 and 1700-1706): is there a cell below 10 around (i, j)? The early
    return is [findM]. *)
Definition open_around (g : board) (row column i j : nat) : R bool :=
  findM (fun '(m, n) => let* w := get g m n in Ok (w <? 10)) (zone row column i j).
(** utils.rs 1694-1710: the search. The buffer is a stack whose top is the head of the list. [Some c]:
    the early return of (Some(c), false). Fuel: every cell enters the buffer at most once. *)
Fixpoint border_search (fuel : nat) (row column : nat) (g : board) (buffer : list pos) : R (option pos) :=
  match buffer with
  | [] => Ok None
  | (i, j) :: buffer =>
      match fuel with
      | O => OutOfFuel
      | S f =>
          let* (g, buffer, found) :=
            foldM (fun '(g, buffer, found) '(m, n) =>
                     match found with
                     | Some c => Ok (g, buffer, Some c)
                     | None =>
                         if posb (i, j) (m, n) then Ok (g, buffer, None)
                         else
                           let* w := get g m n in
                           if w =? 10 then
                             let* o := open_around g row column m n in
                             if o : bool then Ok (g, buffer, Some (m, n))
                             else let* g := set g m n 100 in Ok (g, (m, n) :: buffer, None)
                           else Ok (g, buffer, None)
                     end)
                  (zone row column i j) (g, buffer, None) in
          match found with
          | Some c => Ok (Some c)
          | None => border_search f row column g buffer
          end
      end
  end.
(** utils.rs 1677-1712 *)
Definition find_a_border_cell (g : board) (xy : pos) : R (option pos * bool) :=
  let row := nrows g in
  let* column := ncolsR g in
  let* o := open_around g row column (fst xy) (snd xy) in
  if o : bool then Ok (Some xy, true)
  else
    let* g := set g (fst xy) (snd xy) 100 in
    let* c := border_search (row * column) row column g [xy] in
    Ok (c, false).

(** algorithms.rs 1327-1387. The board the caller passed in is left as [snd]. Note that the cell found by
    [find_a_border_cell] shadows the clicked cell [xy] in the rest of the function. *)
Definition is_guess_while_needless (g : board) (xy : pos) : R (Z * board) :=
  let g := map (map (fun v => if 10 <? v then 10 else v)) g in
  let* w := get g (fst xy) (snd xy) in
  if w <? 10 then Ok (5, g)
  else
    let* ses := refresh_matrixses g in
    let* (o, border) := find_a_border_cell g xy in
    match o with
    | None => Ok (2, g)
    | Some c =>
        match find (fun grp => existsb (fun B => mem_pos c (vars B)) grp) ses with
        | None => Panic
        | Some bl =>
            let* (bl, n1, _, bd) := unwrap (solve_direct bl g) in
            if negb border && negb (is_nil n1) then Ok (3, bd)
            else
              let* w := get bd (fst c) (snd c) in
              if w =? 12 then Ok (1, bd)
              else if w =? 11 then Ok (4, bd)
              else
                let* (bl, n2, _, bd) := unwrap (solve_minus bl bd) in
                if negb border && negb (is_nil n2) then Ok (3, bd)
                else
                  let* w := get bd (fst c) (snd c) in
                  if w =? 12 then Ok (1, bd)
                  else if w =? 11 then Ok (4, bd)
                  else
                    let* (n3, i3) := solve_enumerate bl in
                    if negb border && negb (is_nil n3) then Ok (3, bd)
                    else if mem_pos c n3 then Ok (1, bd)
                    else if mem_pos c i3 then Ok (4, bd)
                    else if is_nil n1 && is_nil n2 && is_nil n3 then Ok (2, bd)
                    else Ok (3, bd)
        end
    end.

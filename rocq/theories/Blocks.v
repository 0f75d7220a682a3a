(** * Blocks: model of [refresh_matrixses] (utils.rs 303-414). The result is the list of groups of
    blocks (Ases, xses and bses are one list, as in Matrix.v). *)
From Verif Require Import Base Matrix.
Open Scope Z_scope.

(** utils.rs 330-350: the flood over the covered cells; the buffer is a stack whose top is the head of
    the list. Result: the marked board and the cells next to an opened one, in the order in which
    they were popped. Fuel: every cell enters the buffer at most once. *)
Fixpoint flood (fuel : nat) (row column : nat) (mark : board) (buffer acc : list pos) : R (board * list pos) :=
  match buffer with
  | [] => Ok (mark, acc)
  | (ti, tj) :: buffer =>
      match fuel with
      | O => OutOfFuel
      | S f =>
          let* (mark, buffer, side) :=
            foldM (fun '(mark, buffer, side) '(m, n) =>
                     let* w := get mark m n in
                     if w =? 10 then let* mark := set mark m n 21 in Ok (mark, (m, n) :: buffer, side)
                     else Ok (mark, buffer, if w <? 10 then true else side))
                  (zone row column ti tj) (mark, buffer, false) in
          flood f row column mark buffer (if side : bool then acc ++ [(ti, tj)] else acc)
      end
  end.
(** utils.rs 321-356: [cell_10], for every connected region of covered cells its cells next to an
    opened one (regions without such cells are left out) *)
Definition regions (g : board) (row column : nat) : R (list (list pos)) :=
  let* (_, cells) :=
    foldM (fun '(mark, cells) '(i, j) =>
             let* w := get mark i j in
             if w =? 10 then
               let* mark := set mark i j 21 in
               let* (mark, acc) := flood (row * column) row column mark [(i, j)] [] in
               Ok (mark, match acc with [] => cells | _ => cells ++ [acc] end)
             else Ok (mark, cells))
          (grid row column) (g, []) in
  Ok cells.

(** [xs.iter().position(|r| r.contains(&seed))] *)
Fixpoint which_block (bl : list block) (p : pos) : option nat :=
  match bl with
  | [] => None
  | B :: bl => if mem_pos p (vars B) then Some 0%nat else option_map S (which_block bl p)
  end.
(** utils.rs 364-373: one region. [todo] is the region from its last cell to its first ([pop] takes the
    head); the region loses a cell in every round. *)
Fixpoint chain (fuel : nat) (bl : list block) (adj : list (list bool)) (seed_id : option nat) (todo : list pos)
  : R (list (list bool)) :=
  match todo with
  | [] => Ok adj
  | seed :: todo =>
      match fuel with
      | O => OutOfFuel
      | S f =>
          match which_block bl seed with
          | None => Panic
          | Some t =>
              let* adj := (match seed_id with
                           | Some s => let* adj := set adj s t true in set adj t s true
                           | None => Ok adj
                           end) in
              let* B := vget bl t in
              chain f bl adj (Some t) (filter (fun x => negb (mem_pos x (vars B))) todo)
          end
      end
  end.

(** utils.rs 383-409: the search from block [t]. Rust keeps a stack; a block pushes its later
    neighbours in increasing order, so the largest comes off first and its own search is finished
    before the next one begins: this is the recursion below. Every level goes to a larger index
    (no block is its own neighbour), so the number of blocks bounds the depth. A block that is
    visited is moved into the group and leaves an empty block behind; visited again, the empty
    block is moved. *)
Fixpoint visit (fuel : nat) (adj : list (list bool)) (n : nat) (st : list block * list block) (t : nat)
  : R (list block * list block) :=
  match fuel with
  | O => OutOfFuel
  | S f =>
      let* B := vget (fst st) t in
      let* bl := vset (fst st) t (Blk [] []) in
      let* later := foldM (fun l j => let* a := get adj t j in Ok (if a : bool then j :: l else l)) (rng t n) [] in
      foldM (visit f adj n) later (bl, snd st ++ [B])
  end.
Definition group_blocks (bl : list block) (adj : list (list bool)) : R (list (list block)) :=
  let n := length bl in
  let* (_, groups) :=
    foldM (fun '(bl, groups) i =>
             let* B := vget bl i in
             match eqs B with
             | [] => Ok (bl, groups)
             | _ => let* (bl, grp) := visit n adj n (bl, []) i in Ok (bl, groups ++ [grp])
             end)
          (seq 0 n) (bl, []) in
  Ok groups.

(** utils.rs 303-414 *)
Definition refresh_matrixses (g : board) : R (list (list block)) :=
  let row := nrows g in
  let* column := ncolsR g in
  let* (bl, _, _) := refresh_matrixs g in
  if (length bl =? 1)%nat then Ok [bl]
  else
    let* cells := regions g row column in
    if (length cells =? 1)%nat then Ok [bl]
    else
      let* adj := foldM (fun adj reg => chain (length reg) bl adj None (rev reg)) cells
                        (mkboard (length bl) (length bl) false) in
      group_blocks bl adj.
